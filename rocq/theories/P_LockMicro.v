(** Preservation of the invariant inside the critical section of unlock_file/close,
    and by the remaining transitions; the global theorem. *)
From Coq Require Import ZArith List Bool Lia ZifyBool.
From Verif Require Import M_Base M_Registry M_Kernel M_LockSys S_Locks S_LockSys P_Registry P_RegEff P_Kernel P_LockInv P_LockStep.
Import ListNotations.
Open Scope Z_scope.

Section MICRO.
Variables strict polite owning : bool.
Notation pinv := (pinv strict polite owning).
Notation sinv := (sinv strict polite owning).
Notation prog_ok := (prog_ok strict).
Notation thr_ok := (thr_ok strict).
Notation tab_ok := (tab_ok strict).

Lemma unique_prog x p P H K t g : pinv x p P H K -> nth_error (p_thr P) t = Some (PProg g) ->
  forall t' g', nth_error (p_thr P) t' = Some (PProg g') -> t' = t /\ g' = g.
Proof.
  intros I Ht t' g' Ht'. pose proof (i_mutex _ _ _ _ _ _ _ _ I _ _ Ht) as A.
  pose proof (i_mutex _ _ _ _ _ _ _ _ I _ _ Ht') as B. rewrite A in B. injection B as <-.
  rewrite Ht in Ht'. injection Ht' as <-. auto.
Qed.

Lemma micro_frame p P P' H K K' t g g' :
  pinv None p P H K -> nth_error (p_thr P) t = Some (PProg g) ->
  p_thr P' = nth_update (p_thr P) t (PProg g') ->
  p_mutex P' = p_mutex P -> p_streams P' = p_streams P -> p_child P' = p_child P ->
  (forall v, EL p (p_reg P') v = EL p (p_reg P) v) -> (forall v, EW p (p_reg P') v = EW p (p_reg P) v) ->
  busy_fd (PProg g') = busy_fd (PProg g) ->
  (* obligations *)
  (forall fd st, p_streams P fd = Some st -> p_fds P' fd = Some (st_uid st) /\ p_ext P' fd = false) ->
  (forall u fd, In fd (ED p (p_reg P') u) -> p_fds P' fd = Some u /\ p_streams P fd = None /\ p_ext P' fd = false) ->
  (forall u, NoDup (ED p (p_reg P') u)) ->
  (forall fd, p_ext P' fd = true -> p_fds P' fd <> None) ->
  prog_ok p P' g' ->
  (forall u lk, In (mkHold p u lk) H -> forall b, rbyte lk b -> (lk_shared lk = false \/ strict = true) ->
      kholds K p u (lk_shared lk) b -> kholds K' p u (lk_shared lk) b) ->
  (forall u sh b, kholds K' p u sh b -> kholds K p u sh b /\
      (forall lo hi, g_uid g = u -> In (lo, hi) (g_unlocks g) -> in_range lo hi b ->
         exists lo' hi', g_uid g' = u /\ In (lo', hi') (g_unlocks g') /\ in_range lo' hi' b)) ->
  (p_child P = false -> forall fd u, p_fds P' fd = Some u ->
      p_ext P' fd = true \/ (exists st, p_streams P fd = Some st) \/ In fd (ED p (p_reg P') u)
      \/ (In fd (g_closes g') \/ (g_fd g' = fd /\ (g_fin g' = FAdd \/ g_fin g' = FExt)))) ->
  (owning = true -> g_fin g' <> FExt) ->
  (owning = true -> forall u, ED p (p_reg P') u <> [] ->
      (exists fd st, p_streams P fd = Some st /\ st_uid st = u)
      \/ (g_uid g' = u /\ (g_purge g' = true \/ g_fin g' = FAdd))) ->
  pinv None p P' H K'.
Proof.
  intros I Ht Ethr Emu Estr Ech SL SW Hb O1 O2 O3 O4 O5 O6 O7 O8 O9 O10.
  pose proof (unique_prog _ _ _ _ _ _ _ I Ht) as Huniq. destruct I.
  assert (nth_error (p_thr P') t = Some (PProg g')) as Ht' by (rewrite Ethr; eapply nth_update_same; eauto).
  assert (forall t' c, nth_error (p_thr P') t' = Some c ->
     (t' = t /\ c = PProg g') \/ (t' <> t /\ nth_error (p_thr P) t' = Some c /\ forall g0, c <> PProg g0)) as Hinv.
  { intros t' c Hc. rewrite Ethr in Hc. apply nth_update_inv in Hc. destruct Hc as [(-> & -> & _)|(Hn & Hc)]; auto.
    right. split; [auto|]. split; [auto|]. intros g0 ->. apply Huniq in Hc. destruct Hc; auto. }
  split; auto.
  - intros u. rewrite SL. auto.
  - intros u lk. rewrite SL, Estr. auto.
  - intros fd st. rewrite Estr. intros X. destruct (O1 _ _ X). destruct (i_str _ _ X) as (_ & _ & ?). auto.
  - intros u fd X. rewrite Estr. auto.
  - intros t' c Hc. destruct (Hinv _ _ Hc) as [(-> & ->)|(Hn & Hc' & Hng)]; [exact O5|].
    pose proof (i_thr _ _ Hc') as Ho.
    assert (forall q, req_ok P q -> req_ok P' q) as Hrq by (intros q; unfold req_ok; now rewrite Estr).
    destruct c; try exact Logic.I; try (apply Hrq; exact Ho).
    + destruct Ho as (A & B & C). split; [auto|]. rewrite SL. auto.
    + destruct Ho as (A & B & C). split; [auto|]. rewrite SL. auto.
    + exfalso. now apply (Hng g0).
  - intros t' g0 Hc. destruct (Hinv _ _ Hc) as [(-> & E)|(Hn & Hc' & Hng)]; [|exfalso; now apply (Hng g0)].
    rewrite Emu. eauto.
  - intros t' X. rewrite Emu in X. rewrite (i_mutex _ _ Ht) in X. injection X as <-. eauto.
  - intros t1 t2 c1 c2 f Hn H1 H2 B1 B2.
    destruct (Hinv _ _ H1) as [(-> & ->)|(N1 & H1' & _)], (Hinv _ _ H2) as [(-> & ->)|(N2 & H2' & _)].
    + congruence.
    + rewrite Hb in B1. exact (i_busy t t2 _ c2 f Hn Ht H2' B1 B2).
    + rewrite Hb in B2. exact (i_busy t1 t c1 _ f Hn H1' Ht B1 B2).
    + exact (i_busy t1 t2 c1 c2 f Hn H1' H2' B1 B2).
  - intros u. rewrite SW, Ethr, (count_wait_update _ _ _ _ _ Ht), i_wait. simpl. lia.
  - intros u lk. rewrite SL. intros Hin. destruct (i_conf u lk Hin) as [|(t' & d & Hd & Hfl)]; auto.
    right. exists t', d. split; auto. rewrite Ethr, nth_update_other; auto. intros <-.
    rewrite Ht in Hd. injection Hd as <-. exact Hfl.
  - intros u lk Hin. rewrite SL. destruct (i_hold u lk Hin) as [A B]. split; eauto.
  - intros u sh b Hk. destruct (O7 _ _ _ Hk) as [Hk' Hun].
    destruct (i_kern u sh b Hk') as [|(t' & g0 & lo & hi & X & Y1 & Y2 & Y3)]; auto.
    destruct (Huniq _ _ X) as [-> ->]. destruct (Hun lo hi Y1 Y2 Y3) as (lo' & hi' & Z1 & Z2 & Z3).
    right. exists t, g', lo', hi'. auto.
  - intros Hp t' q Hc Hx. rewrite SL. destruct (Hinv _ _ Hc) as [(-> & E)|(Hn & Hc' & Hng)]; [discriminate|]. eauto.
  - intros Hc fd u Hf. rewrite Ech in Hc. rewrite Estr. destruct (O8 Hc fd u Hf) as [|[|[|]]]; auto.
    right; right; right. exists t, g'. auto.
  - intros Ho fd st. rewrite Estr. exact (i_closefd Ho fd st).
  - intros Ho t' g0 Hc. destruct (Hinv _ _ Hc) as [(-> & E)|(Hn & Hc' & Hng)]; [|exfalso; now apply (Hng g0)].
    injection E as ->. auto.
  - intros Ho u Hd. rewrite Estr. destruct (O10 Ho u Hd) as [|]; auto. right. exists t, g'. tauto.
Qed.

(** Releasing the mutex. *)
Lemma release_pinv p P H K t g :
  pinv None p P H K -> nth_error (p_thr P) t = Some (PProg g) ->
  g_closes g = [] -> g_purge g = false -> g_unlocks g = [] -> (g_fin g = FUnlock \/ g_fin g = FNone) ->
  pinv None p (set_pc (with_mutex P MFree) t PIdle) H K.
Proof.
  intros I Ht G1 G2 G3 G4. pose proof (unique_prog _ _ _ _ _ _ _ I Ht) as Huniq. destruct I.
  assert (forall t' c, nth_error (nth_update (p_thr P) t PIdle) t' = Some c ->
     (t' = t /\ c = PIdle) \/ (t' <> t /\ nth_error (p_thr P) t' = Some c /\ forall g0, c <> PProg g0)) as Hinv.
  { intros t' c Hc. apply nth_update_inv in Hc. destruct Hc as [(-> & -> & _)|(Hn & Hc)]; auto.
    right. split; [auto|]. split; [auto|]. intros g0 ->. apply Huniq in Hc. destruct Hc; auto. }
  split; psimpl; auto.
  - intros t' c Hc. destruct (Hinv _ _ Hc) as [(-> & ->)|(Hn & Hc' & Hng)]; [exact Logic.I|].
    pose proof (i_thr _ _ Hc') as Ho. destruct c; auto. destruct Ho; split; auto.
  - intros t' g0 Hc. destruct (Hinv _ _ Hc) as [(-> & E)|(Hn & Hc' & Hng)]; [discriminate|exfalso; now apply (Hng g0)].
  - discriminate.
  - intros t1 t2 c1 c2 f Hn H1 H2 B1 B2.
    destruct (Hinv _ _ H1) as [(-> & ->)|(N1 & H1' & _)]; [discriminate|].
    destruct (Hinv _ _ H2) as [(-> & ->)|(N2 & H2' & _)]; [discriminate|].
    exact (i_busy t1 t2 c1 c2 f Hn H1' H2' B1 B2).
  - intros u. rewrite (count_wait_update _ _ _ _ _ Ht), i_wait. simpl. lia.
  - intros u lk Hin. destruct (i_conf u lk Hin) as [|(t' & d & Hd & Hfl)]; auto.
    right. exists t', d. split; auto. rewrite nth_update_other; auto. intros <-.
    rewrite Ht in Hd. injection Hd as <-. exact Hfl.
  - intros u sh b Hk.
    destruct (i_kern u sh b Hk) as [|(t' & g0 & lo & hi & X & Y1 & Y2 & Y3)]; auto.
    destruct (Huniq _ _ X) as [-> ->]. rewrite G3 in Y2. destruct Y2.
  - intros Hp t' q Hc Hx. destruct (Hinv _ _ Hc) as [(-> & E)|(Hn & Hc' & Hng)]; [discriminate|]. eauto.
  - intros Hc fd u Hf. destruct (i_fds Hc fd u Hf) as [|[|[|(t' & g0 & X & Y)]]]; auto.
    destruct (Huniq _ _ X) as [-> ->]. rewrite G1 in Y. destruct Y as [[]|[_ [Y|Y]]]; destruct G4; congruence.
  - intros Ho t' g0 Hc. destruct (Hinv _ _ Hc) as [(-> & E)|(Hn & Hc' & Hng)]; [discriminate|exfalso; now apply (Hng g0)].
  - intros Ho u Hd. destruct (i_pend Ho u Hd) as [|(t' & g0 & X & Y & Z)]; auto.
    destruct (Huniq _ _ X) as [-> ->]. destruct Z as [Z|Z]; [congruence|]. destruct G4; congruence.
Qed.

(** Each piece of the critical section succeeds and preserves the invariant. *)
Lemma micro_pinv p P H K t g :
  pinv None p P H K -> nth_error (p_thr P) t = Some (PProg g) ->
  exists P' K', micro p P K t g = Some (P', K')
  /\ pinv None p P' H K'
  /\ (forall p' u sh b, p' <> p -> kholds K p' u sh b <-> kholds K' p' u sh b)
  /\ (forall u sh b, kholds K' p u sh b -> kholds K p u sh b).
Proof.
  intros I Ht. pose proof (unique_prog _ _ _ _ _ _ _ I Ht) as Huniq.
  pose proof (i_thr _ _ _ _ _ _ _ _ I _ _ Ht) as PO. cbn [P_LockInv.thr_ok] in PO.
  assert (g_uid g = g_uid g) as Hu by reflexivity.
  unfold micro. destruct (g_closes g) as [|c cs] eqn:Ecl.
  2:{ (* close(2) *)
    destruct (po_cl _ _ _ _ PO c) as (C1 & C2 & C3 & C4); [rewrite Ecl; now left|].
    pose proof (po_nolock _ _ _ _ PO) as Hnl. rewrite Ecl in Hnl. specialize (Hnl ltac:(discriminate)).
    pose proof (po_cl_nodup _ _ _ _ PO) as Hnd. rewrite Ecl in Hnd. inversion Hnd as [|? ? Hnc Hnd']; subst.
    rewrite C1. eexists _, _. split; [reflexivity|]. split; [|split].
    - eapply micro_frame with (g' := mkProg (g_fd g) (g_uid g) cs (g_purge g) (g_unlocks g) (g_fin g));
        try exact I; try exact Ht; psimpl; auto.
      + intros fd st Hst. destruct (i_str _ _ _ _ _ _ _ _ I fd st Hst) as (A & B & _).
        split; auto. rewrite zupd_neq; auto. congruence.
      + intros u fd Hin. destruct (i_data _ _ _ _ _ _ _ _ I u fd Hin) as (A & B & D).
        split; auto. rewrite zupd_neq; auto. intros <-. assert (u = g_uid g) by congruence. subst u. auto.
      + apply (i_data_nodup _ _ _ _ _ _ _ _ I).
      + intros fd Hx. rewrite zupd_neq by congruence. now apply (i_ext _ _ _ _ _ _ _ _ I).
      + destruct PO. split; psimpl; cbn [g_fd g_uid g_closes g_purge g_unlocks g_fin]; auto.
        * intros X. destruct (po_fd X) as (A & B & D & E). rewrite Ecl in E. simpl in E.
          split; [rewrite zupd_neq; [auto|tauto]|]. split; auto.
        * intros d Hd. destruct (po_cl d) as (A & B & D & E); [rewrite Ecl; now right|].
          split; [rewrite zupd_neq; [auto|congruence]|auto].
      + intros u lk Hh b Hb Hs Hk. apply kclose_holds. split; auto. intros [_ ->].
        apply (i_hold _ _ _ _ _ _ _ _ I) in Hh. rewrite Hnl in Hh. destruct Hh as [[] _].
      + intros u sh b Hk. apply kclose_holds in Hk. destruct Hk as [Hk Hn]. split; auto.
        intros lo hi A B D. exists lo, hi. auto.
      + intros Hc fd u Hf. assert (c <> fd) as Hne by (intros <-; rewrite zupd_eq in Hf; discriminate).
        rewrite zupd_neq in Hf by auto.
        destruct (i_fds _ _ _ _ _ _ _ _ I Hc fd u Hf) as [|[|[|(t' & g0 & X & Y)]]]; auto.
        destruct (Huniq _ _ X) as [-> ->]. rewrite Ecl in Y. right; right; right. cbn.
        destruct Y as [[|]|Y]; auto. congruence.
      + intros Ho. exact (i_noext _ _ _ _ _ _ _ _ I Ho _ _ Ht).
      + intros Ho u Hd. destruct (i_pend _ _ _ _ _ _ _ _ I Ho u Hd) as [|(t' & g0 & X & Y)]; auto.
        destruct (Huniq _ _ X) as [-> ->]. auto.
    - intros p' u sh b Hp. rewrite kclose_holds. tauto.
    - intros u sh b. rewrite kclose_holds. tauto. }
  destruct (g_purge g) eqn:Epu.
  { (* purge *)
    destruct (unique_id_has_locks p (p_reg P) (g_uid g)) as [has r1] eqn:Eh.
    destruct (haslocks_eff _ _ _ _ _ Eh) as [S1 Hhas].
    destruct (if has then ([], r1) else remove_unique_id_data p r1 (g_uid g)) as [data r2] eqn:Er.
    assert ((forall v, EL p r2 v = EL p (p_reg P) v) /\ (forall v, EW p r2 v = EW p (p_reg P) v)
      /\ (forall v, v <> g_uid g -> ED p r2 v = ED p (p_reg P) v)
      /\ ((has = true /\ data = [] /\ ED p r2 (g_uid g) = ED p (p_reg P) (g_uid g))
          \/ (has = false /\ data = ED p (p_reg P) (g_uid g) /\ ED p r2 (g_uid g) = []))) as (SL & SW & SD & Hcase).
    { destruct has.
      - injection Er as <- <-. split; [intros v; apply S1|]. split; [intros v; apply S1|]. split; [intros v _; apply S1|].
        left. split; auto. split; auto. apply S1.
      - destruct (takedata_eff _ _ _ _ _ Er) as (T1 & T2 & T3 & T4 & T5).
        split; [intros v; rewrite T1; apply S1|]. split; [intros v; rewrite T2; apply S1|].
        split; [intros v Hv; rewrite T3 by auto; apply S1|]. right. split; auto. split; auto.
        rewrite T5. apply S1. }
    assert (forall v fd, In fd (ED p r2 v) -> In fd (ED p (p_reg P) v)) as Sub.
    { intros v fd Hin. destruct (uid_dec v (g_uid g)) as [->|Hv]; [|rewrite SD in Hin; auto].
      destruct Hcase as [(_ & _ & E)|(_ & _ & E)]; rewrite E in Hin; [auto|destruct Hin]. }
    assert (forall fd, In fd data -> In fd (ED p (p_reg P) (g_uid g)) /\ ~ In fd (ED p r2 (g_uid g))) as Sub2.
    { intros fd Hin. destruct Hcase as [(_ & -> & E)|(_ & -> & E)]; [destruct Hin|]. rewrite E. auto. }
    eexists _, _. split; [reflexivity|]. split; [|split; tauto].
    eapply micro_frame with (g' := mkProg (g_fd g) (g_uid g) data false (g_unlocks g) (g_fin g));
        try exact I; try exact Ht; psimpl; auto.
    - intros fd st Hst. destruct (i_str _ _ _ _ _ _ _ _ I fd st Hst) as (A & B & _). auto.
    - intros u fd Hin. apply (i_data _ _ _ _ _ _ _ _ I). auto.
    - intros u. destruct (uid_dec u (g_uid g)) as [->|Hv]; [|rewrite SD by auto; apply (i_data_nodup _ _ _ _ _ _ _ _ I)].
      destruct Hcase as [(_ & _ & E)|(_ & _ & E)]; rewrite E; [apply (i_data_nodup _ _ _ _ _ _ _ _ I)|constructor].
    - apply (i_ext _ _ _ _ _ _ _ _ I).
    - destruct PO. split; psimpl; cbn [g_fd g_uid g_closes g_purge g_unlocks g_fin]; auto.
      + intros X. destruct (po_fd X) as (A & B & D & E). split; [auto|]. split; [auto|]. split; [auto|].
        intros Y. apply Sub2 in Y. tauto.
      + destruct Hcase as [(_ & -> & _)|(_ & -> & _)]; [constructor|apply (i_data_nodup _ _ _ _ _ _ _ _ I)].
      + intros d Hd. destruct (Sub2 d Hd) as [A B]. destruct (i_data _ _ _ _ _ _ _ _ I _ _ A) as (X & Y & Z). auto.
      + intros Hne. rewrite SL. apply Hhas. destruct Hcase as [(_ & E & _)|(E & _)]; [congruence|auto].
      + intros lo hi lk b A. rewrite SL. eapply po_rng. exact A.
    - intros u sh b Hk. split; auto. intros lo hi A B D. exists lo, hi. auto.
    - intros Hc fd u Hf.
      destruct (i_fds _ _ _ _ _ _ _ _ I Hc fd u Hf) as [|[|[X|(t' & g0 & X & Y)]]]; auto.
      + destruct (uid_dec u (g_uid g)) as [->|Hv]; [|rewrite SD by auto; auto].
        destruct Hcase as [(_ & _ & E)|(_ & -> & E)]; [rewrite E; auto|]. right; right; right. cbn. auto.
      + destruct (Huniq _ _ X) as [-> ->]. rewrite Ecl in Y. right; right; right. cbn.
        destruct Y as [[]|Y]; auto.
    - intros Ho. exact (i_noext _ _ _ _ _ _ _ _ I Ho _ _ Ht).
    - intros Ho u Hd. destruct (uid_dec u (g_uid g)) as [->|Hv].
      + destruct Hcase as [(Hh & _ & _)|(_ & _ & E)]; [|congruence].
        left. destruct (EL p (p_reg P) (g_uid g)) as [|lk l] eqn:EE.
        { assert (has = false) by (apply Hhas; auto). congruence. }
        destruct (i_own _ _ _ _ _ _ _ _ I (g_uid g) lk) as (st & A & B); [rewrite EE; now left|]. eauto.
      + rewrite SD in Hd by auto. destruct (i_pend _ _ _ _ _ _ _ _ I Ho u Hd) as [|(t' & g0 & X & Y & _)]; auto.
        destruct (Huniq _ _ X) as [-> ->]. congruence. }
  destruct (g_unlocks g) as [|[lo hi] rest] eqn:Eun.
  2:{ (* kernel unlock *)
    destruct (po_fd _ _ _ _ PO) as (F1 & F2 & F3 & F4); [left; rewrite Eun; discriminate|].
    rewrite F1. eexists _, _. split; [reflexivity|]. split; [|split].
    - eapply micro_frame with (g' := mkProg (g_fd g) (g_uid g) [] true rest (g_fin g));
        try exact I; try exact Ht; psimpl; auto.
      + intros fd st Hst. destruct (i_str _ _ _ _ _ _ _ _ I fd st Hst) as (A & B & _). auto.
      + intros u fd Hin. apply (i_data _ _ _ _ _ _ _ _ I). auto.
      + apply (i_data_nodup _ _ _ _ _ _ _ _ I).
      + apply (i_ext _ _ _ _ _ _ _ _ I).
      + destruct PO. split; psimpl; cbn [g_fd g_uid g_closes g_purge g_unlocks g_fin]; auto.
        * intros X. exfalso. specialize (po_late X). congruence.
        * constructor.
        * intros d [].
        * intros lo' hi' lk b A. apply po_rng. rewrite Eun. now right.
      + intros u lk Hh b Hb Hs Hk. apply kunlock_holds. split; auto. intros (_ & -> & Hr).
        apply (i_hold _ _ _ _ _ _ _ _ I) in Hh. destruct Hh as [Hh _].
        destruct (po_rng _ _ _ _ PO lo hi lk b) as [X Y]; auto; [rewrite Eun; now left|]. destruct Hs; congruence.
      + intros u sh b Hk. apply kunlock_holds in Hk. destruct Hk as [Hk Hn]. split; auto.
        intros lo' hi' A B D. rewrite Eun in B. destruct B as [[= <- <-]|B]; [exfalso; auto|].
        exists lo', hi'. auto.
      + intros Hc fd u Hf.
        destruct (i_fds _ _ _ _ _ _ _ _ I Hc fd u Hf) as [|[|[|(t' & g0 & X & Y)]]]; auto.
        destruct (Huniq _ _ X) as [-> ->]. rewrite Ecl in Y. right; right; right. cbn.
        destruct Y as [[]|Y]; auto.
      + intros Ho. exact (i_noext _ _ _ _ _ _ _ _ I Ho _ _ Ht).
      + intros Ho u Hd. destruct (i_pend _ _ _ _ _ _ _ _ I Ho u Hd) as [|(t' & g0 & X & Y)]; auto.
        destruct (Huniq _ _ X) as [-> ->]. cbn. tauto.
    - intros p' u sh b Hp. rewrite kunlock_holds. tauto.
    - intros u sh b. rewrite kunlock_holds. tauto. }
  destruct (g_fin g) eqn:Ef.
  - eexists _, _. split; [reflexivity|]. split; [|split; tauto]. eapply release_pinv; eauto.
  - eexists _, _. split; [reflexivity|]. split; [|split; tauto]. eapply release_pinv; eauto.
  - (* FAdd *)
    destruct (po_fd _ _ _ _ PO) as (F1 & F2 & F3 & F4); [right; left; auto|].
    destruct (po_dead _ _ _ _ PO) as (D1 & D2); [left; auto|].
    destruct (adddata_eff p (p_reg P) (g_uid g) (g_fd g)) as (r' & Er & SL & SW & SD & SDu); [lia|].
    rewrite Er. eexists _, _. split; [reflexivity|]. split; [|split; tauto].
    assert (forall u fd, In fd (ED p r' u) -> In fd (ED p (p_reg P) u) \/ (u = g_uid g /\ fd = g_fd g)) as Sub.
    { intros u fd Hin. destruct (uid_dec u (g_uid g)) as [->|Hv]; [|rewrite SD in Hin; auto].
      rewrite SDu in Hin. apply in_app_iff in Hin. destruct Hin as [|[<-|[]]]; auto. }
    eapply micro_frame with (g' := mkProg (g_fd g) (g_uid g) [] true [] FDel);
        try exact I; try exact Ht; psimpl; auto.
    + simpl. now rewrite Ef.
    + intros fd st Hst. destruct (i_str _ _ _ _ _ _ _ _ I fd st Hst) as (A & B & _). auto.
    + intros u fd Hin. apply Sub in Hin. destruct Hin as [Hin|[-> ->]]; [apply (i_data _ _ _ _ _ _ _ _ I); auto|auto].
    + intros u. destruct (uid_dec u (g_uid g)) as [->|Hv]; [|rewrite SD by auto; apply (i_data_nodup _ _ _ _ _ _ _ _ I)].
      rewrite SDu. pose proof (i_data_nodup _ _ _ _ _ _ _ _ I (g_uid g)) as Hnd.
      apply NoDup_rev in Hnd. rewrite <- (rev_involutive (_ ++ _)). apply NoDup_rev.
      rewrite rev_app_distr. simpl. constructor; auto. now rewrite <- in_rev.
    + apply (i_ext _ _ _ _ _ _ _ _ I).
    + split; cbn [g_fd g_uid g_closes g_purge g_unlocks g_fin]; try (intros; congruence).
      * intros [X|[X|X]]; congruence.
      * intros [X|X]; congruence.
      * constructor.
      * intros d [].
      * intros lo hi lk b [].
    + intros u sh b Hk. split; auto. intros lo hi A B D. rewrite Eun in B. destruct B.
    + intros Hc fd u Hf.
      destruct (i_fds _ _ _ _ _ _ _ _ I Hc fd u Hf) as [|[|[X|(t' & g0 & X & Y)]]]; auto.
      * right; right; left. destruct (uid_dec u (g_uid g)) as [->|Hv]; [|rewrite SD by auto; auto].
        rewrite SDu. apply in_app_iff. auto.
      * destruct (Huniq _ _ X) as [-> ->]. rewrite Ecl in Y. destruct Y as [[]|[<- _]].
        right; right; left. assert (u = g_uid g) by congruence. subst u.
        rewrite SDu. apply in_app_iff. right. now left.
    + intros _. cbn. discriminate.
    + intros Ho u Hd. destruct (uid_dec u (g_uid g)) as [->|Hv]; [right; cbn; auto|]. rewrite SD in Hd by auto.
      destruct (i_pend _ _ _ _ _ _ _ _ I Ho u Hd) as [|(t' & g0 & X & Y & _)]; auto.
      destruct (Huniq _ _ X) as [-> ->]. congruence.
  - (* FDel *)
    destruct (try_deleting_unique_id_entry p (p_reg P) (g_uid g)) as [b r'] eqn:Er.
    pose proof (trydel_eff _ _ _ _ _ Er) as S.
    assert (forall v, EL p r' v = EL p (p_reg P) v) as SL by (intros v; apply S).
    assert (forall v, ED p r' v = ED p (p_reg P) v) as SD by (intros v; apply S).
    assert (forall v, EW p r' v = EW p (p_reg P) v) as SW by (intros v; apply S).
    eexists _, _. split; [reflexivity|]. split; [|split; tauto].
    eapply micro_frame with (g' := mkProg (g_fd g) (g_uid g) [] false [] FNone);
        try exact I; try exact Ht; psimpl; auto.
    + simpl. now rewrite Ef.
    + intros fd st Hst. destruct (i_str _ _ _ _ _ _ _ _ I fd st Hst) as (A & B & _). auto.
    + intros u fd. rewrite SD. apply (i_data _ _ _ _ _ _ _ _ I).
    + intros u. rewrite SD. apply (i_data_nodup _ _ _ _ _ _ _ _ I).
    + apply (i_ext _ _ _ _ _ _ _ _ I).
    + split; cbn [g_fd g_uid g_closes g_purge g_unlocks g_fin]; try (intros; congruence).
      * intros [X|[X|X]]; congruence.
      * intros [X|X]; congruence.
      * constructor.
      * intros d [].
      * intros lo hi lk b' [].
    + intros u sh b' Hk. split; auto. intros lo hi A B D. rewrite Eun in B. destruct B.
    + intros Hc fd u Hf. rewrite SD.
      destruct (i_fds _ _ _ _ _ _ _ _ I Hc fd u Hf) as [|[|[X|(t' & g0 & X & Y)]]]; auto.
      destruct (Huniq _ _ X) as [-> ->]. rewrite Ecl in Y. destruct Y as [[]|[_ [Y|Y]]]; congruence.
    + intros _. cbn. discriminate.
    + intros Ho u Hd. rewrite SD in Hd.
      destruct (i_pend _ _ _ _ _ _ _ _ I Ho u Hd) as [|(t' & g0 & X & Y & Z)]; auto.
      destruct (Huniq _ _ X) as [-> ->]. destruct Z; congruence.
  - (* FExt *)
    destruct (po_fd _ _ _ _ PO) as (F1 & F2 & F3 & F4); [right; right; auto|].
    destruct (po_dead _ _ _ _ PO) as (D1 & D2); [right; auto|].
    eexists _, _. split; [reflexivity|]. split; [|split; tauto].
    assert (owning = true -> False) as Hno.
    { intros Ho. exact (i_noext _ _ _ _ _ _ _ _ I Ho _ _ Ht Ef). }
    eapply micro_frame with (g' := mkProg (g_fd g) (g_uid g) [] false [] FNone);
        try exact I; try exact Ht; psimpl; auto.
    + simpl. now rewrite Ef.
    + intros fd st Hst. destruct (i_str _ _ _ _ _ _ _ _ I fd st Hst) as (A & B & _). split; auto.
      rewrite zupd_neq; auto. congruence.
    + intros u fd Hin. destruct (i_data _ _ _ _ _ _ _ _ I u fd Hin) as (A & B & C). split; auto. split; auto.
      rewrite zupd_neq; auto. intros <-. assert (u = g_uid g) by congruence. subst u. auto.
    + apply (i_data_nodup _ _ _ _ _ _ _ _ I).
    + intros fd. unfold upd. destruct (g_fd g =? fd) eqn:E; [apply Z.eqb_eq in E; subst fd; congruence|apply (i_ext _ _ _ _ _ _ _ _ I)].
    + split; cbn [g_fd g_uid g_closes g_purge g_unlocks g_fin]; try (intros; congruence).
      * intros [X|[X|X]]; congruence.
      * intros [X|X]; congruence.
      * constructor.
      * intros d [].
      * intros lo hi lk b' [].
    + intros u sh b' Hk. split; auto. intros lo hi A B D. rewrite Eun in B. destruct B.
    + intros Hc fd u Hf. destruct (Z.eq_dec (g_fd g) fd) as [<-|Hn]; [rewrite zupd_eq; auto|]. rewrite zupd_neq by auto.
      destruct (i_fds _ _ _ _ _ _ _ _ I Hc fd u Hf) as [|[|[X|(t' & g0 & X & Y)]]]; auto.
      destruct (Huniq _ _ X) as [-> ->]. rewrite Ecl in Y. destruct Y as [[]|[? _]]; congruence.
    + intros Ho. exfalso. auto.
Qed.

End MICRO.
