(** Preservation of the lock-system invariant by each transition. *)
From Coq Require Import ZArith List Bool Lia ZifyBool.
From Verif Require Import M_Base M_Registry M_Kernel M_LockSys S_Locks S_LockSys P_Registry P_RegEff P_Kernel P_LockInv.
Import ListNotations.
Open Scope Z_scope.

Ltac psimpl := cbn [p_reg p_mutex p_fds p_streams p_ext p_thr p_child
  with_thr with_reg with_mutex with_fds with_streams with_ext set_pc] in *.

Lemma lockrec_dec (a b : lockrec) : {a = b} + {a <> b}.
Proof. repeat decide equality. Qed.

Section STEP.
Variables strict polite owning : bool.
Notation pinv := (pinv strict polite owning).
Notation sinv := (sinv strict polite owning).
Notation prog_ok := (prog_ok strict).
Notation thr_ok := (thr_ok strict).
Notation tab_ok := (tab_ok strict).

(** One process changes. *)
Lemma sinv_one s p P P' H' K' :
  sinv s -> s_procs s p = Some P ->
  pinv None p P' H' K' ->
  (forall p' u lk, p' <> p -> In (mkHold p' u lk) (s_holds s) <-> In (mkHold p' u lk) H') ->
  (forall p' u sh b, p' <> p -> kholds (s_kern s) p' u sh b <-> kholds K' p' u sh b) ->
  (forall p2 u sh1 sh2 b, p2 <> p -> kholds K' p u sh1 b -> kholds (s_kern s) p2 u sh2 b -> sh1 = true /\ sh2 = true) ->
  sinv (mkSys (upd Z.eqb (s_procs s) p (Some P')) K' H').
Proof.
  intros I Hp HP HH HK HC. destruct I. split; cbn [s_procs s_kern s_holds].
  - intros p' Q. unfold upd. destruct (p =? p') eqn:E.
    + apply Z.eqb_eq in E. subst p'. intros [= <-]. auto.
    + apply Z.eqb_neq in E. intros HQ. eapply pinv_frame; [| |apply s_live; eauto].
      * intros u lk. apply HH. auto.
      * intros u sh b. apply HK. auto.
  - intros [p' u lk] Hin. simpl. unfold upd. destruct (p =? p') eqn:E; [discriminate|].
    apply Z.eqb_neq in E. apply HH in Hin; auto. apply s_dead_h in Hin. exact Hin.
  - intros p' u sh b Hk. unfold upd. destruct (p =? p') eqn:E; [discriminate|].
    apply Z.eqb_neq in E. apply HK in Hk; auto. eapply s_dead_k; eauto.
  - intros p1 p2 u sh1 sh2 b Hn K1 K2.
    destruct (Z.eq_dec p1 p) as [->|N1], (Z.eq_dec p2 p) as [->|N2].
    + congruence.
    + apply HK in K2; auto. eapply HC; eauto.
    + apply HK in K1; auto. destruct (HC p1 u sh2 sh1 b); auto.
    + apply HK in K1; auto. apply HK in K2; auto. eapply s_compat; [exact Hn|exact K1|exact K2].
Qed.

(** One process changes, its holds and kernel locks do not. *)
Lemma sinv_local s p P P' :
  sinv s -> s_procs s p = Some P ->
  (pinv None p P (s_holds s) (s_kern s) -> pinv None p P' (s_holds s) (s_kern s)) ->
  sinv (set_proc s p (Some P')).
Proof.
  intros I Hp HP. eapply sinv_one; eauto.
  - apply HP. eapply s_live; eauto.
  - tauto.
  - tauto.
  - intros p2 u sh1 sh2 b Hn K1 K2. apply (s_compat _ _ _ _ I p p2 u sh1 sh2 b); auto.
Qed.

Lemma kernel_end_range off len : kernel_end off len = range_end off len.
Proof. unfold kernel_end, range_end, kend. destruct len as [l|]; auto. Qed.

(** ** Kernel lock obtained *)
Lemma kern_pinv p P H K K' t q :
  pinv None p P H K ->
  nth_error (p_thr P) t = Some (PLockKern q) ->
  ksetlk K p (q_uid q) (q_shared q) (q_off q) (q_end q) = Some K' ->
  pinv None p (set_pc P t PIdle) (mkHold p (q_uid q) (q_rec q) :: H) K'.
Proof.
  intros I Ht EK. pose proof (ksetlk_holds _ _ _ _ _ _ _ EK) as KH.
  destruct I. destruct (i_thr t _ Ht) as (Hreq & Hin & Hnh).
  assert (forall t' g, nth_error (nth_update (p_thr P) t PIdle) t' = Some (PProg g) <-> nth_error (p_thr P) t' = Some (PProg g)) as Hprog.
  { intros t' g. destruct (Nat.eq_dec t t') as [<-|Hn].
    - rewrite (nth_update_same _ _ _ _ Ht), Ht. split; discriminate.
    - rewrite nth_update_other by auto. tauto. }
  split; psimpl; auto.
  - intros t' c Hc. apply nth_update_inv in Hc. destruct Hc as [(-> & -> & _)|(Hn & Hc)]; [exact Logic.I|].
    pose proof (i_thr t' c Hc) as Ho.
    assert (forall q', busy_fd c = Some (q_fd q') -> mkHold p (q_uid q) (q_rec q) <> mkHold p (q_uid q') (q_rec q')) as Hne.
    { intros q' Hb E. injection E as E1 E2 E3 E4 E5.
      exact (i_busy t' t c _ (q_fd q) Hn Hc Ht (eq_trans Hb (f_equal Some (eq_sym E2))) eq_refl). }
    destruct c; try exact Ho.
    + destruct Ho as (A & B & C). split; [exact A|]. split; [exact B|]. intros [X|X]; [now apply Hne in X|auto].
    + destruct Ho as (A & B & C). split; [exact A|]. split; [exact B|]. intros [X|X]; [now apply Hne in X|auto].
    + destruct Ho. split; auto.
  - intros t' g. rewrite Hprog. apply i_mutex.
  - intros t' Hm. destruct (i_held t' Hm) as (g & Hg). exists g. now apply Hprog.
  - intros t1 t2 c1 c2 f Hn H1 H2 B1 B2. apply nth_update_inv in H1, H2.
    destruct H1 as [(-> & -> & _)|(N1 & H1)]; [discriminate|].
    destruct H2 as [(-> & -> & _)|(N2 & H2)]; [discriminate|].
    exact (i_busy t1 t2 c1 c2 f Hn H1 H2 B1 B2).
  - intros v. rewrite (count_wait_update _ _ _ _ _ Ht), i_wait. simpl. lia.
  - intros v lk Hlk. destruct (i_conf v lk Hlk) as [|(t' & d & Hd & Hfl)]; [left; now right|].
    destruct (Nat.eq_dec t' t) as [->|Hn].
    + rewrite Ht in Hd. injection Hd as <-. destruct Hfl as [<- <-]. left. now left.
    + right. exists t', d. split; auto. rewrite nth_update_other; auto.
  - intros v lk [E|Hh].
    + injection E as <- <-. split; auto. intros b Hb _. apply KH. left. auto.
    + destruct (i_hold v lk Hh) as [A B]. split; auto. intros b Hb Hs. apply KH. right. split; auto.
      intros (_ & -> & Hr).
      assert (lk <> q_rec q) as Hne by (intros ->; auto).
      destruct (tab_compat _ _ (i_tab (q_uid q)) lk (q_rec q) A Hin Hne) as (_ & S1 & _ & S2).
      { exists b. split; auto. }
      destruct Hs; congruence.
  - intros v sh b Hk. apply KH in Hk. destruct Hk as [(_ & -> & -> & Hb)|[Hk _]].
    + left. exists (q_rec q). split; [now left|split; [exact Hb|reflexivity]].
    + destruct (i_kern v sh b Hk) as [(lk & A & B)|(t' & g & lo & hi & X & Y)].
      * left. exists lk. split; auto. now right.
      * right. exists t', g, lo, hi. rewrite Hprog. auto.
  - intros Hp t' q' Hd Hx. apply nth_update_inv in Hd. destruct Hd as [(-> & X & _)|(Hn & Hd)]; [discriminate|]. eauto.
  - intros Hch fd v Hfd. destruct (i_fds Hch fd v Hfd) as [|[|[|(t' & g & X & Y)]]]; auto.
    right; right; right. exists t', g. rewrite Hprog. auto.
  - intros Ho t' g. rewrite Hprog. exact (i_noext Ho t' g).
  - intros Ho v Hd. destruct (i_pend Ho v Hd) as [|(t' & g & X & Y)]; auto.
    right. exists t', g. rewrite Hprog. auto.
Qed.

(** ** A failed lock_file unregisters *)
Lemma unregister_pinv p P H K t q r' x n :
  pinv None p P H K ->
  nth_error (p_thr P) t = Some (PLockFail q) -> mutex_free P = true ->
  unregister_file_lock p (p_reg P) (q_uid q) (q_fd q) (q_len q) (q_off q) = (x, r', n) ->
  n = true /\ (exists y, x = Ok y) /\ pinv (Some (q_uid q)) p (set_pc (with_reg P r') t PIdle) H K.
Proof.
  intros I Ht Hm E. pose proof (no_prog _ _ _ _ _ _ _ _ I Hm) as Hnp. destruct I.
  destruct (i_thr t _ Ht) as (Hreq & Hin & Hnh).
  destruct (unregister_eff _ _ _ _ _ _ _ _ _ E) as (_ & SD & SW & SL & C).
  destruct C as [(_ & _ & X & _)|[(y & l1 & lk & l2 & -> & -> & E1 & E2 & L1 & L2 & L3)|(y & _ & _ & _ & X)]].
  { rewrite X in Hin. destruct Hin. }
  2:{ exfalso. exact (X (q_rec q) Hin eq_refl eq_refl eq_refl). }
  split; auto. split; [eauto|].
  set (u := q_uid q) in *. set (rec := q_rec q) in *.
  assert (tab_ok (l1 ++ lk :: l2)) as HT by (rewrite <- E1; auto).
  assert (lk = rec) as ->.
  { assert (In lk (EL p (p_reg P) u)) as Hlk by (rewrite E1; apply in_app_iff; right; now left).
    destruct (tab_nonempty _ _ (i_tab u) rec Hin) as (b & Hb).
    destruct (lockrec_dec lk rec) as [|Hne]; auto.
    exfalso. destruct (tab_compat _ _ (i_tab u) lk rec Hlk Hin Hne) as (X & _).
    { exists b. split; [|exact Hb]. rewrite L2, L3. exact Hb. }
    apply X. exact L1. }
  destruct (tab_remove _ _ _ _ HT) as (HT' & Hnin & _).
  assert (forall v a, In a (EL p r' v) -> In a (EL p (p_reg P) v) /\ (v = u -> a <> rec)) as Inv.
  { intros v a Ha. destruct (uid_dec v u) as [->|Hn].
    - rewrite E2 in Ha. split; [rewrite E1; rewrite in_app_iff in *; simpl; tauto|]. intros _ ->. auto.
    - rewrite SL in Ha by auto. split; [auto|congruence]. }
  assert (forall v a, In a (EL p (p_reg P) v) -> (v = u /\ a = rec) \/ In a (EL p r' v)) as Keep.
  { intros v a Ha. destruct (uid_dec v u) as [->|Hn].
    - rewrite E1 in Ha. rewrite E2. rewrite in_app_iff in *. simpl in Ha. intuition auto.
    - rewrite SL by auto. auto. }
  assert (forall t' g, nth_error (nth_update (p_thr P) t PIdle) t' <> Some (PProg g)) as Hnp'.
  { intros t' g X. apply nth_update_inv in X. destruct X as [(_ & X & _)|(_ & X)]; [discriminate|]. eapply Hnp; eauto. }
  split; psimpl; auto; try (intros; rewrite ?SD in *; eauto; fail).
  - intros v. destruct (uid_dec v u) as [->|Hn]; [rewrite E2; auto|rewrite SL; auto].
  - intros v a Ha. apply Inv in Ha. destruct Ha; eauto.
  - intros t' c Hc. apply nth_update_inv in Hc. destruct Hc as [(-> & -> & _)|(Hn & Hc)]; [exact Logic.I|].
    pose proof (i_thr t' c Hc) as Ho.
    assert (forall q', busy_fd c = Some (q_fd q') -> In (q_rec q') (EL p (p_reg P) (q_uid q')) -> In (q_rec q') (EL p r' (q_uid q'))) as Hk.
    { intros q' Hb Hi. destruct (Keep _ _ Hi) as [[_ X]|]; auto. exfalso.
      assert (q_fd q' = q_fd q) as E' by (injection X; auto).
      apply (i_busy t' t c _ (q_fd q) Hn Hc Ht); [rewrite Hb; congruence|reflexivity]. }
    destruct c; try exact Ho.
    + destruct Ho as (A & B & C). split; [exact A|]. split; [apply Hk; auto|exact C].
    + destruct Ho as (A & B & C). split; [exact A|]. split; [apply Hk; auto|exact C].
    + exfalso. eapply Hnp; eauto.
  - intros t' g X. exfalso. eapply Hnp'; eauto.
  - intros t' X. exfalso. unfold mutex_free in Hm. rewrite X in Hm. discriminate.
  - intros t1 t2 c1 c2 f Hn H1 H2 B1 B2. apply nth_update_inv in H1, H2.
    destruct H1 as [(-> & -> & _)|(N1 & H1)]; [discriminate|].
    destruct H2 as [(-> & -> & _)|(N2 & H2)]; [discriminate|].
    exact (i_busy t1 t2 c1 c2 f Hn H1 H2 B1 B2).
  - intros v. rewrite (count_wait_update _ _ _ _ _ Ht), SW, i_wait. simpl. lia.
  - intros v a Ha. destruct (Inv _ _ Ha) as [Ha' Hne].
    destruct (i_conf v a Ha') as [|(t' & d & Hd & Hfl)]; auto.
    right. exists t', d. split; auto. rewrite nth_update_other; auto. intros <-.
    rewrite Ht in Hd. injection Hd as <-. destruct Hfl as [F1 F2]. exact (Hne (eq_sym F1) (eq_sym F2)).
  - intros v a Ha. destruct (i_hold v a Ha) as [A B]. split; auto.
    destruct (Keep _ _ A) as [[-> ->]|]; auto. exfalso. auto.
  - intros v sh b Hk. destruct (i_kern v sh b Hk) as [|(t' & g & lo & hi & X & Y)]; auto.
    exfalso. eapply Hnp; eauto.
  - intros Hp t' q' Hd Hx. apply nth_update_inv in Hd. destruct Hd as [(-> & X & _)|(Hn & Hd)]; [discriminate|].
    rewrite SL by congruence. apply (i_block Hp t'); auto. discriminate.
  - intros Hch fd v Hfd. rewrite SD. destruct (i_fds Hch fd v Hfd) as [|[|[|(t' & g & X & Y)]]]; auto.
    exfalso. eapply Hnp; eauto.
  - intros Ho t' g X. exfalso. eapply Hnp'; eauto.
  - intros Ho v Hd. rewrite SD in Hd. destruct (i_pend Ho v Hd) as [|(t' & g & X & Y)]; auto.
    exfalso. eapply Hnp; eauto.
Qed.

(** ** Entering unlock_file() / close() *)
Lemma enter_pinv x p P H H' K t fd st r' streams' g (keep : lockrec -> bool) :
  pinv None p P H K ->
  nth_error (p_thr P) t = Some PIdle -> mutex_free P = true ->
  p_streams P fd = Some st -> is_busy P fd = false ->
  (forall v, ED p r' v = ED p (p_reg P) v) -> (forall v, EW p r' v = EW p (p_reg P) v) ->
  (forall v, v <> st_uid st -> EL p r' v = EL p (p_reg P) v) ->
  tab_ok (EL p r' (st_uid st)) ->
  (forall a, In a (EL p r' (st_uid st)) <-> In a (EL p (p_reg P) (st_uid st)) /\ keep a = true) ->
  (forall a, In a (EL p (p_reg P) (st_uid st)) -> keep a = false -> lk_handle a = fd) ->
  (forall v lk, In (mkHold p v lk) H' <-> In (mkHold p v lk) H /\ (v = st_uid st -> keep lk = true)) ->
  g_fd g = fd -> g_uid g = st_uid st -> g_closes g = [] ->
  (forall a b, In a (EL p (p_reg P) (st_uid st)) -> keep a = false -> rbyte a b ->
      exists lo hi, In (lo, hi) (g_unlocks g) /\ in_range lo hi b) ->
  (forall lo hi a b, In (lo, hi) (g_unlocks g) -> In a (EL p r' (st_uid st)) -> rbyte a b -> in_range lo hi b ->
      lk_shared a = true /\ strict = false) ->
  (   (g_fin g = FUnlock /\ streams' = p_streams P)
   \/ (g_fin g = (if st_closefd st then FAdd else FExt) /\ streams' = upd Z.eqb (p_streams P) fd None
       /\ forall a, In a (EL p r' (st_uid st)) -> lk_handle a <> fd)) ->
  (x = Some (st_uid st) \/ (polite = true -> forall a, In a (EL p (p_reg P) (st_uid st)) -> keep a = true)) ->
  pinv x p (set_pc (with_streams (with_mutex (with_reg P r') (MHeld t)) streams') t (PProg g)) H' K.
Proof.
  intros I Ht Hm Hst Hbusy SD SW SL HT HK Hrem HH Gfd Guid Gcl Hcov Hrng Hfin Hx.
  pose proof (no_prog _ _ _ _ _ _ _ _ I Hm) as Hnp. destruct I.
  set (u := st_uid st) in *.
  destruct (i_str fd st Hst) as (Hfd1 & Hfd2 & Hfd3).
  assert (forall v a, In a (EL p r' v) -> In a (EL p (p_reg P) v) /\ (v = u -> keep a = true)) as Inv.
  { intros v a Ha. destruct (uid_dec v u) as [->|Hn].
    - apply HK in Ha. tauto.
    - rewrite SL in Ha by auto. split; [auto|congruence]. }
  assert (forall v a, In a (EL p (p_reg P) v) -> lk_handle a <> fd -> In a (EL p r' v)) as Keep.
  { intros v a Ha Hn. destruct (uid_dec v u) as [->|Hv].
    - apply HK. split; auto. destruct (keep a) eqn:E; [auto|]. exfalso. apply Hn. eauto.
    - rewrite SL by auto. auto. }
  assert (forall f, f <> fd -> streams' f = p_streams P f) as Hstr'.
  { intros f Hf. destruct Hfin as [[_ ->]|(_ & -> & _)]; auto. apply zupd_neq. auto. }
  assert (forall f s, streams' f = Some s -> p_streams P f = Some s) as Hstr2.
  { intros f s. destruct Hfin as [[_ ->]|(_ & -> & _)]; auto. unfold upd. destruct (fd =? f); [discriminate|auto]. }
  assert (forall t' c, nth_error (p_thr P) t' = Some c -> busy_fd c <> Some fd) as Hnb.
  { intros t' c Hc. eapply is_busy_false; eauto. }
  assert (p_fds P fd = Some u /\ ~ In fd (ED p (p_reg P) u)) as [Hf1 Hf2].
  { split; auto. intros X. apply i_data in X. destruct X as (_ & X & _). congruence. }
  split; psimpl; auto; try (intros; rewrite ?SD in *; eauto; fail).
  - intros v. destruct (uid_dec v u) as [->|Hn]; [auto|rewrite SL; auto].
  - intros v a Ha. pose proof (Inv v a Ha) as [Ha' Hk].
    destruct (i_own v a Ha') as (s & S1 & S2).
    destruct (Z.eq_dec (lk_handle a) fd) as [E|Hn]; [|rewrite Hstr'; eauto].
    destruct Hfin as [[_ ->]|(_ & -> & Hno)]; eauto.
    assert (v = u) as -> by (unfold u; congruence). exfalso. now apply (Hno a Ha).
  - intros v f Hf. rewrite SD in Hf. destruct (i_data v f Hf) as (A & B & C). split; [auto|]. split; [|auto].
    destruct (streams' f) as [s|] eqn:E; auto. apply Hstr2 in E. congruence.
  - intros t' c Hc. apply nth_update_inv in Hc. destruct Hc as [(-> & -> & _)|(Hn & Hc)].
    + cbn [P_LockInv.thr_ok]. split; psimpl; rewrite ?Gfd, ?Guid, ?Gcl, ?SD.
      * intros _. split; auto.
      * destruct Hfin as [[F _]|(F & -> & _)].
        { rewrite F. intros [|]; discriminate. }
        intros _. rewrite zupd_eq. auto.
      * destruct Hfin as [[F ->]|(F & -> & _)]; rewrite F; [intros _; exists st; auto|].
        destruct (st_closefd st); discriminate.
      * destruct Hfin as [[F ->]|(F & -> & _)]; rewrite F; [intros [|]; discriminate|].
        destruct (st_closefd st); intros [|]; discriminate.
      * constructor.
      * intros c [].
      * congruence.
      * exact Hrng.
    + pose proof (i_thr t' c Hc) as Ho. pose proof (Hnb t' c Hc) as Hb.
      assert (forall q, busy_fd c = Some (q_fd q) -> req_ok P q ->
        req_ok (set_pc (with_streams (with_mutex (with_reg P r') (MHeld t)) streams') t (PProg g)) q) as Hrq.
      { intros q Hq (A & s & B & C). split; [exact A|]. exists s. split; [|exact C]. psimpl. rewrite Hstr'; [exact B|congruence]. }
      destruct c; try (apply Hrq; [reflexivity|exact Ho]); try exact Logic.I.
      * destruct Ho as (A & B & C). split; [apply Hrq; auto|]. split; [apply Keep; [exact B|intros Eq; apply Hb; simpl in *; congruence]|].
        intros X. apply HH in X. tauto.
      * destruct Ho as (A & B & C). split; [apply Hrq; auto|]. split; [apply Keep; [exact B|intros Eq; apply Hb; simpl in *; congruence]|].
        intros X. apply HH in X. tauto.
      * exfalso. eapply Hnp; eauto.
  - intros t' g' X. apply nth_update_inv in X. destruct X as [(-> & X & _)|(_ & X)]; auto. exfalso. eapply Hnp; eauto.
  - intros t' [= <-]. exists g. eapply nth_update_same; eauto.
  - intros t1 t2 c1 c2 f Hn H1 H2 B1 B2. apply nth_update_inv in H1, H2.
    assert (forall f, busy_fd (PProg g) = Some f -> f = fd) as Hg.
    { intros f'. simpl. rewrite Gfd. destruct (g_fin g); congruence. }
    destruct H1 as [(-> & -> & _)|(N1 & H1)], H2 as [(-> & -> & _)|(N2 & H2)].
    + congruence.
    + apply Hg in B1. subst f. eapply Hnb; eauto.
    + apply Hg in B2. subst f. eapply Hnb; eauto.
    + exact (i_busy t1 t2 c1 c2 f Hn H1 H2 B1 B2).
  - intros v. rewrite (count_wait_update _ _ _ _ _ Ht), SW, i_wait. simpl. lia.
  - intros v a Ha. destruct (Inv _ _ Ha) as [Ha' Hne].
    destruct (i_conf v a Ha') as [|(t' & d & Hd & Hfl)]; [left; apply HH; auto|].
    right. exists t', d. split; auto. rewrite nth_update_other; auto. intros <-.
    rewrite Ht in Hd. injection Hd as <-. exact Hfl.
  - intros v a Ha. apply HH in Ha. destruct Ha as [Ha Hk]. destruct (i_hold v a Ha) as [A B]. split; auto.
    destruct (uid_dec v u) as [->|Hv]; [apply HK; auto|rewrite SL; auto].
  - intros v sh b Hk. destruct (i_kern v sh b Hk) as [(lk & A & B)|(t' & g' & lo & hi & X & Y)];
      [|exfalso; eapply Hnp; eauto].
    destruct (uid_dec v u) as [->|Hv].
    + destruct (keep lk) eqn:E.
      * left. exists lk. split; auto. apply HH. auto.
      * right. destruct (i_hold _ _ A) as [A' _]. destruct (Hcov lk b A' E (proj1 B)) as (lo & hi & U & V).
        exists t, g, lo, hi. split; [eapply nth_update_same; eauto|auto].
    + left. exists lk. split; [|auto]. apply HH. split; [auto|congruence].
  - intros Hp t' q' Hd Hx'. apply nth_update_inv in Hd. destruct Hd as [(-> & X & _)|(Hn & Hd)]; [discriminate|].
    destruct (i_block Hp t' q' Hd) as (lk & A & B); [discriminate|].
    exists lk. split; auto. destruct (uid_dec (q_uid q') u) as [E|Hv]; [|rewrite SL; auto].
    rewrite E in *. destruct Hx as [->|Hx]; [congruence|]. apply HK. auto.
  - intros Hch f v Hf. rewrite SD. destruct (i_fds Hch f v Hf) as [|[(s & S1)|[|(t' & g' & X & Y)]]]; auto.
    + destruct (Z.eq_dec f fd) as [->|Hn]; [|right; left; exists s; rewrite Hstr'; auto].
      destruct Hfin as [[_ ->]|(F & _)]; [right; left; eauto|].
      right; right; right. exists t, g. split; [eapply nth_update_same; eauto|]. right. split; auto.
      rewrite F. destruct (st_closefd st); auto.
    + exfalso. eapply Hnp; eauto.
  - intros Ho t' g' X. apply nth_update_inv in X. destruct X as [(-> & X & _)|(_ & X)]; [|exfalso; eapply Hnp; eauto].
    injection X as ->. destruct Hfin as [[F _]|(F & _)]; rewrite F; [discriminate|].
    rewrite (i_closefd Ho fd st Hst). discriminate.
  - intros Ho v Hd. rewrite SD in Hd. destruct (i_pend Ho v Hd) as [(f & s & S1 & S2)|(t' & g' & X & Y)];
      [|exfalso; eapply Hnp; eauto].
    destruct (Z.eq_dec f fd) as [->|Hn]; [|left; exists f, s; rewrite Hstr'; auto].
    destruct Hfin as [[_ ->]|(F & _)]; [left; eauto|].
    right. exists t, g. split; [eapply nth_update_same; eauto|]. split; [unfold u in *; congruence|].
    right. rewrite F, (i_closefd Ho fd st Hst). auto.
Qed.

End STEP.
