(** The lock-system invariant holds in every reachable state. *)
From Coq Require Import ZArith List Bool Lia ZifyBool.
From Verif Require Import M_Base M_Registry M_Kernel M_LockSys S_Locks S_LockSys P_Registry P_RegEff P_Kernel P_LockInv P_LockStep P_LockMicro.
Import ListNotations.
Open Scope Z_scope.

Lemma recorded_EL p P u : recorded p P u = EL p (p_reg P) u.
Proof. reflexivity. Qed.

Section MAIN.
Variables strict polite owning : bool.
Notation pinv := (pinv strict polite owning).
Notation sinv := (sinv strict polite owning).
Notation prog_ok := (prog_ok strict).
Notation thr_ok := (thr_ok strict).
Notation tab_ok := (tab_ok strict).

Lemma init_sinv : sinv init_sys.
Proof.
  split; simpl; try discriminate.
  - intros h [].
  - intros p u sh b Hk. now apply kholds_nil in Hk.
  - intros p1 p2 u sh1 sh2 b _ Hk. now apply kholds_nil in Hk.
Qed.

(** A process without threads in rsfile and an empty visible registry. *)
Lemma blank_pinv p P H K :
  (forall u, EL p (p_reg P) u = [] /\ ED p (p_reg P) u = [] /\ EW p (p_reg P) u = 0) ->
  p_thr P = [PIdle] -> (forall t, p_mutex P <> MHeld t) ->
  (forall fd st, p_streams P fd = Some st -> p_fds P fd = Some (st_uid st) /\ p_ext P fd = false /\ 0 < fd) ->
  (forall fd, p_ext P fd = true -> p_fds P fd <> None) ->
  (p_child P = false -> forall fd u, p_fds P fd = Some u -> p_ext P fd = true) ->
  (owning = true -> forall fd st, p_streams P fd = Some st -> st_closefd st = true) ->
  (forall h, In h H -> h_pid h <> p) -> (forall u sh b, ~ kholds K p u sh b) ->
  pinv None p P H K.
Proof.
  intros HR HT HM HS HE HF HO HH HK.
  assert (forall t c, nth_error (p_thr P) t = Some c -> c = PIdle) as Hidle.
  { intros t c. rewrite HT. destruct t as [|[|t]]; simpl; congruence. }
  assert (forall u, EL p (p_reg P) u = []) as HL by apply HR.
  assert (forall u, ED p (p_reg P) u = []) as HD by apply HR.
  split; auto.
  - intros u. rewrite HL. apply tab_nil.
  - intros u lk. rewrite HL. intros [].
  - intros u fd. rewrite HD. intros [].
  - intros u. rewrite HD. constructor.
  - intros t c Hc. apply Hidle in Hc. subst. exact Logic.I.
  - intros t g Hc. apply Hidle in Hc. discriminate.
  - intros t Hm. exfalso. now apply (HM t).
  - intros t1 t2 c1 c2 f _ H1 _ B. apply Hidle in H1. subst. discriminate.
  - intros u. destruct (HR u) as (_ & _ & ->). rewrite HT. reflexivity.
  - intros u lk. rewrite HL. intros [].
  - intros u lk X. apply HH in X. simpl in X. congruence.
  - intros u sh b X. exfalso. eapply HK; eauto.
  - intros _ t q Hc. apply Hidle in Hc. discriminate.
  - intros Hc fd u Hf. left. eauto.
  - intros _ t g Hc. apply Hidle in Hc. discriminate.
  - intros _ u. rewrite HD. congruence.
Qed.

Lemma spawn_pinv p P H K : pinv None p P H K -> pinv None p (with_thr P (p_thr P ++ [PIdle])) H K.
Proof.
  intros I. destruct I.
  assert (forall t c, nth_error (p_thr P ++ [PIdle]) t = Some c -> nth_error (p_thr P) t = Some c \/ c = PIdle) as Hinv.
  { intros t c Hc. destruct (Nat.lt_ge_cases t (length (p_thr P))).
    - rewrite nth_error_app1 in Hc by auto. auto.
    - rewrite nth_error_app2 in Hc by auto. destruct (t - length (p_thr P))%nat as [|[|n]]; simpl in Hc; try discriminate.
      injection Hc as <-. auto. }
  assert (forall t c, nth_error (p_thr P) t = Some c -> nth_error (p_thr P ++ [PIdle]) t = Some c) as Hext.
  { intros t c Hc. rewrite nth_error_app1; auto. apply nth_error_Some. congruence. }
  split; psimpl; auto.
  - intros t c Hc. destruct (Hinv _ _ Hc) as [Hc'| ->]; [|exact Logic.I].
    pose proof (i_thr _ _ Hc') as Ho. destruct c; auto. destruct Ho; split; auto.
  - intros t g Hc. destruct (Hinv _ _ Hc); [eauto|discriminate].
  - intros t Hm. destruct (i_held t Hm) as (g & Hg). eauto.
  - intros t1 t2 c1 c2 f Hn H1 H2 B1 B2.
    destruct (Hinv _ _ H1) as [H1'| ->]; [|discriminate]. destruct (Hinv _ _ H2) as [H2'| ->]; [|discriminate].
    exact (i_busy t1 t2 c1 c2 f Hn H1' H2' B1 B2).
  - intros u. rewrite count_wait_app, i_wait. simpl. lia.
  - intros u lk Hin. destruct (i_conf u lk Hin) as [|(t & c & A & B)]; eauto 6.
  - intros u sh b Hk. destruct (i_kern u sh b Hk) as [|(t & g & lo & hi & A & B)]; auto.
    right. exists t, g, lo, hi. auto.
  - intros Hp t q Hc Hx. destruct (Hinv _ _ Hc); [eauto|discriminate].
  - intros Hc fd u Hf. destruct (i_fds Hc fd u Hf) as [|[|[|(t & g & A & B)]]]; auto.
    right; right; right. exists t, g. auto.
  - intros Ho t g Hc. destruct (Hinv _ _ Hc) as [X|X]; [exact (i_noext Ho t g X)|discriminate].
  - intros Ho u Hd. destruct (i_pend Ho u Hd) as [|(t & g & A & B)]; auto.
    right. exists t, g. auto.
Qed.

(** A new descriptor / a new stream on a descriptor that rsfile does not use. *)
Lemma newfd_pinv p P H K fd u (ext : bool) fds' streams' ext' :
  pinv None p P H K ->
  (p_fds P fd = None /\ fds' = upd Z.eqb (p_fds P) fd (Some u)
   \/ p_fds P fd = Some u /\ p_ext P fd = true /\ fds' = p_fds P) ->
  (   (ext = true /\ streams' = p_streams P /\ ext' = upd Z.eqb (p_ext P) fd true)
   \/ (ext = false /\ 0 < fd /\ (exists cf, streams' = upd Z.eqb (p_streams P) fd (Some (mkStream u cf))
                                 /\ (owning = true -> cf = true))
       /\ ext' fd = false /\ forall f, f <> fd -> ext' f = p_ext P f)) ->
  pinv None p (with_ext (with_streams (with_fds P fds') streams') ext') H K.
Proof.
  intros I Hfd Hst. destruct I.
  assert (p_streams P fd = None) as Hnos.
  { destruct (p_streams P fd) as [s|] eqn:E; auto. destruct (i_str _ _ E) as (A & B & _).
    destruct Hfd as [[X _]|(_ & X & _)]; congruence. }
  assert (forall v, ~ In fd (ED p (p_reg P) v)) as Hnod.
  { intros v X. destruct (i_data _ _ X) as (A & _ & B). destruct Hfd as [[Y _]|(_ & Y & _)]; congruence. }
  assert (forall f, f <> fd -> fds' f = p_fds P f /\ streams' f = p_streams P f /\ ext' f = p_ext P f) as Hoth.
  { intros f Hf. split; [|split].
    - destruct Hfd as [[_ ->]|(_ & _ & ->)]; auto. rewrite zupd_neq; auto.
    - destruct Hst as [(_ & -> & _)|(_ & _ & (cf & -> & _) & _)]; auto. rewrite zupd_neq; auto.
    - destruct Hst as [(_ & _ & ->)|(_ & _ & _ & _ & X)]; auto. rewrite zupd_neq; auto. }
  assert (fds' fd = Some u) as Hfd'.
  { destruct Hfd as [[_ ->]|(X & _ & ->)]; auto. apply zupd_eq. }
  assert (forall f s, p_streams P f = Some s -> streams' f = Some s) as Hmono.
  { intros f s Hs. destruct (Hoth f) as (_ & -> & _); auto. congruence. }
  assert (forall t g, nth_error (p_thr P) t = Some (PProg g) ->
    ~ (In fd (g_closes g)) /\ ((g_unlocks g <> [] \/ g_fin g = FAdd \/ g_fin g = FExt) -> g_fd g <> fd)) as Hnog.
  { intros t g Hg. pose proof (i_thr _ _ Hg) as PO. split.
    - intros X. destruct (po_cl _ _ _ _ PO _ X) as (A & _ & B & _). destruct Hfd as [[Y _]|(_ & Y & _)]; congruence.
    - intros X <-. destruct (po_fd _ _ _ _ PO X) as (A & B & _). destruct Hfd as [[Y _]|(_ & Y & _)]; congruence. }
  split; psimpl; auto.
  - intros v lk Hin. destruct (i_own v lk Hin) as (s & A & B). eauto.
  - intros f s Hs. destruct (Z.eq_dec f fd) as [->|Hn].
    + destruct Hst as [(_ & E & _)|(_ & Hpos & (cf & -> & _) & E & _)]; [rewrite E in Hs; congruence|].
      rewrite zupd_eq in Hs. injection Hs as <-. auto.
    + destruct (Hoth f Hn) as (-> & E & ->). rewrite E in Hs. auto.
  - intros v f Hin. assert (f <> fd) as Hn by (intros ->; eapply Hnod; eauto).
    destruct (Hoth f Hn) as (-> & -> & ->). auto.
  - intros f Hx. destruct (Z.eq_dec f fd) as [->|Hn]; [congruence|].
    destruct (Hoth f Hn) as (-> & _ & E). rewrite E in Hx. auto.
  - intros t c Hc. pose proof (i_thr _ _ Hc) as Ho.
    assert (forall q, req_ok P q -> req_ok (with_ext (with_streams (with_fds P fds') streams') ext') q) as Hrq.
    { intros q (A & s & B & C). split; auto. exists s. split; auto. }
    destruct c; auto; try (now apply Hrq); try (destruct Ho as (A & B & C); split; [now apply Hrq|auto]).
    destruct (Hnog _ _ Hc) as [N1 N2]. pose proof Ho as PO. destruct Ho. split; psimpl; auto.
    + intros X. destruct (po_fd X) as (A & B & C & D). destruct (Hoth (g_fd g) (N2 X)) as (-> & _ & ->). auto.
    + intros X. destruct (Hoth (g_fd g)) as (_ & -> & _); [apply N2; right; exact X|auto].
    + intros X. destruct (po_live X) as (s & A & B). eauto.
    + intros c X. destruct (Hoth c) as (-> & -> & ->); auto. intros ->. auto.
  - intros Hc f v Hf. destruct (Z.eq_dec f fd) as [->|Hn].
    + destruct Hst as [(_ & _ & ->)|(_ & _ & (cf & -> & _) & _)]; [left; apply zupd_eq|].
      right; left. rewrite zupd_eq. eauto.
    + destruct (Hoth f Hn) as (E1 & -> & ->). rewrite E1 in Hf. auto.
  - intros Ho f s Hs. destruct (Z.eq_dec f fd) as [->|Hn].
    + destruct Hst as [(_ & E & _)|(_ & Hpos & (cf & -> & Hcf) & E & _)]; [rewrite E in Hs; congruence|].
      rewrite zupd_eq in Hs. injection Hs as <-. simpl. auto.
    + destruct (Hoth f Hn) as (_ & E & _). rewrite E in Hs. exact (i_closefd Ho f s Hs).
  - intros Ho v Hd. destruct (i_pend Ho v Hd) as [(f & s & A & B)|]; eauto 6.
Qed.

Lemma set_pc_twice P t a b : set_pc (set_pc P t a) t b = set_pc P t b.
Proof. unfold set_pc, with_thr; simpl. now rewrite nth_update_twice. Qed.

(** register_file_lock's body, from PLockReg. *)
Lemma try_pinv p P H K t q o r :
  pinv None p P H K ->
  nth_error (p_thr P) t = Some (PLockReg q) -> mutex_free P = true ->
  register_once true p (p_reg P) (q_uid q) (q_fd q) (q_len q) (q_off q) (q_shared q) = (o, r) ->
  (strict = true -> forall a, In a (EL p (p_reg P) (q_uid q)) -> lk_handle a <> q_fd q ->
      lk_shared a = true -> q_shared q = true -> ~ rshare a (q_rec q)) ->
  exists P', after_try P t q o r = Some P' /\ pinv None p P' H K.
Proof.
  intros I Ht Hm E Hs.
  destruct (register_eff _ _ _ _ _ _ _ _ _ E) as (Hpid & SD & SW & SL & Hex & C).
  pose proof (i_thr _ _ _ _ _ _ _ _ I _ _ Ht) as Hq. simpl in Hq.
  destruct C as [(-> & SLu & Hfree)|[(-> & SLu & Hbusy)|(-> & SLu & Hsame)]].
  - eexists. split; [reflexivity|]. eapply register_granted; eauto.
  - assert (forall v, EL p r v = EL p (p_reg P) v) as SL'.
    { intros v. destruct (uid_dec v (q_uid q)) as [->|]; auto. }
    simpl. destruct (q_block q).
    + destruct (waiting_eff p r (q_uid q) 1 Hpid Hex) as (r' & Er & _ & WL & WD & WW). rewrite Er.
      eexists. split; [reflexivity|].
      eapply pinv_set_pc_reg with (c := PLockReg q); eauto; try discriminate.
      * intros v. rewrite WL. auto.
      * intros v. rewrite WD. auto.
      * intros v. rewrite WW, SW. simpl. rewrite SW. destruct (uid_eqb (q_uid q) v) eqn:Eu; simpl; [|lia].
        apply uid_eqb_eq in Eu. rewrite Eu. lia.
      * intros q' [= <-]. exact Hbusy.
    + eexists. split; [reflexivity|].
      eapply pinv_set_pc_reg with (c := PLockReg q); eauto; try discriminate.
      intros v. rewrite SW. simpl. lia.
  - assert (forall v, EL p r v = EL p (p_reg P) v) as SL'.
    { intros v. destruct (uid_dec v (q_uid q)) as [->|]; auto. }
    eexists. split; [reflexivity|].
    eapply pinv_set_pc_reg with (c := PLockReg q); eauto; try discriminate.
    + intros v. rewrite SW. simpl. lia.
    + exact Logic.I.
    + right. discriminate.
Qed.

Lemma nso_use p P q :
  negb (existsb (fun lk => negb (lk_handle lk =? q_fd q) && lk_shared lk && q_shared q
                           && areas_overlap (lk_start lk) (lk_end lk) (q_off q) (q_end q))
                (recorded p P (q_uid q))) = true ->
  forall a, In a (EL p (p_reg P) (q_uid q)) -> lk_handle a <> q_fd q ->
      lk_shared a = true -> q_shared q = true -> ~ rshare a (q_rec q).
Proof.
  intros Hn a Ha H1 H2 H3 Hsh. apply negb_true_iff in Hn.
  assert (existsb (fun lk => negb (lk_handle lk =? q_fd q) && lk_shared lk && q_shared q
                           && areas_overlap (lk_start lk) (lk_end lk) (q_off q) (q_end q))
                (recorded p P (q_uid q)) = true); [|congruence].
  apply existsb_exists. exists a. split; auto. rewrite H2, H3.
  apply Z.eqb_neq in H1. rewrite H1. simpl. apply overlap_spec. exact Hsh.
Qed.

Lemma lock_matches_spec p u h st en p' v lk :
  lock_matches p u h st en (mkHold p' v lk) = true <->
  p' = p /\ v = u /\ lk_handle lk = h /\ lk_start lk = st /\ lk_end lk = en.
Proof.
  unfold lock_matches; simpl. rewrite !andb_true_iff, !Z.eqb_eq, uid_eqb_eq.
  assert (oz_eqb (lk_end lk) en = true <-> lk_end lk = en) as ->.
  { destruct (lk_end lk), en; simpl; rewrite ?Z.eqb_eq; split; congruence. }
  tauto.
Qed.

Lemma owned_by_spec p u h p' v lk :
  owned_by p u h (mkHold p' v lk) = true <-> p' = p /\ v = u /\ lk_handle lk = h.
Proof. unfold owned_by; simpl. rewrite !andb_true_iff, !Z.eqb_eq, uid_eqb_eq. tauto. Qed.

Ltac step_proc p P Hp :=
  match goal with H : context [match s_procs ?s p with _ => _ end] |- _ =>
    destruct (s_procs s p) as [P|] eqn:Hp; [|discriminate H] end.

Theorem step_sinv s a s' :
  sinv s -> step s a = Some s' ->
  (strict = true -> no_shared_overlap s a = true) ->
  (polite = true -> unlock_before_close s a = true) ->
  (owning = true -> owning_streams s a = true) ->
  sinv s'.
Proof.
  intros SI E Dst Dpo Dow. destruct a; simpl in E.
  - (* ABoot *)
    destruct (s_procs s p) eqn:Hp; [discriminate|]. injection E as <-. destruct SI.
    assert (forall h, In h (s_holds s) -> h_pid h <> p) as Hh.
    { intros h Hin Ec. apply s_dead_h in Hin. rewrite Ec in Hin. contradiction. }
    assert (forall u sh b, ~ kholds (s_kern s) p u sh b) as Hk.
    { intros u sh b X. apply s_dead_k in X. contradiction. }
    split; unfold set_proc; cbn [s_procs s_kern s_holds]; auto.
    + intros p' Q. unfold upd. destruct (p =? p') eqn:Ep; [|auto].
      apply Z.eqb_eq in Ep. subst p'. intros [= <-]. apply blank_pinv; auto; simpl; try discriminate.
      intros u. unfold EL, ED, EW. rewrite cf_own by reflexivity. auto.
    + intros h Hin. unfold upd. destruct (p =? h_pid h); [discriminate|auto].
    + intros p' u sh b X. unfold upd. destruct (p =? p'); [discriminate|eauto].
  - (* ASpawn *)
    step_proc p P Hp. injection E as <-. eapply sinv_local; eauto. apply spawn_pinv.
  - (* AExit *)
    step_proc p P Hp. injection E as <-. destruct SI.
    split; cbn [s_procs s_kern s_holds].
    + intros p' Q. unfold upd. destruct (p =? p') eqn:Ep; [discriminate|]. apply Z.eqb_neq in Ep.
      intros HQ. eapply pinv_frame; [| |apply s_live; eauto].
      * intros u lk. rewrite filter_In. simpl.
        assert ((p' =? p) = false) as -> by (apply Z.eqb_neq; auto). simpl. tauto.
      * intros u sh b. rewrite kexit_holds. split; [intros X; split; auto|tauto].
    + intros h Hin. apply filter_In in Hin. destruct Hin as [Hin Hn].
      unfold upd. destruct (p =? h_pid h) eqn:Ep; [|auto]. rewrite Z.eqb_sym, Ep in Hn. discriminate.
    + intros p' u sh b Hk. apply kexit_holds in Hk. destruct Hk as [Hk Hn].
      unfold upd. destruct (p =? p') eqn:Ep; [apply Z.eqb_eq in Ep; congruence|eauto].
    + intros p1 p2 u sh1 sh2 b Hn K1 K2. apply kexit_holds in K1, K2. eapply s_compat; [exact Hn|apply K1|apply K2].
  - (* AFork *)
    step_proc p P Hp. destruct (s_procs s c) eqn:Hc; [discriminate|].
    destruct (_ && negb (c =? r_pid (p_reg P))) eqn:Eg; [|discriminate]. injection E as <-.
    apply andb_true_iff in Eg. destruct Eg as [_ Eg]. apply negb_true_iff in Eg.
    pose proof (s_live _ _ _ _ SI _ _ Hp) as I. destruct SI.
    assert (forall h, In h (s_holds s) -> h_pid h <> c) as Hh.
    { intros h Hin Ec. apply s_dead_h in Hin. rewrite Ec in Hin. contradiction. }
    assert (forall u sh b, ~ kholds (s_kern s) c u sh b) as Hk.
    { intros u sh b X. apply s_dead_k in X. contradiction. }
    split; unfold set_proc; cbn [s_procs s_kern s_holds]; auto.
    + intros p' Q. unfold upd. destruct (c =? p') eqn:Ep; [|auto].
      apply Z.eqb_eq in Ep. subst p'. intros [= <-]. apply blank_pinv; auto; psimpl.
      * intros u. unfold EL, ED, EW, check_forking. rewrite Eg. auto.
      * intros t. destruct (p_mutex P); discriminate.
      * apply (i_str _ _ _ _ _ _ _ _ I).
      * apply (i_ext _ _ _ _ _ _ _ _ I).
      * discriminate.
      * intros Ho fd st. exact (i_closefd _ _ _ _ _ _ _ _ I Ho fd st).
    + intros h Hin. unfold upd. destruct (c =? h_pid h); [discriminate|auto].
    + intros p' u sh b X. unfold upd. destruct (c =? p'); [discriminate|eauto].
  - (* AOpen *)
    step_proc p P Hp. destruct (p_fds P fd) eqn:Hfd; [discriminate|]. destruct (0 <? fd) eqn:Hpos; [|discriminate].
    injection E as <-. eapply sinv_local; eauto. intros I.
    replace (with_streams (with_fds P (upd Z.eqb (p_fds P) fd (Some u))) (upd Z.eqb (p_streams P) fd (Some (mkStream u true))))
      with (with_ext (with_streams (with_fds P (upd Z.eqb (p_fds P) fd (Some u))) (upd Z.eqb (p_streams P) fd (Some (mkStream u true)))) (p_ext P))
      by reflexivity.
    eapply newfd_pinv with (fd := fd) (u := u) (ext := false); eauto.
    right. split; auto. split; [lia|]. split; [eauto|]. split; auto.
    destruct (p_ext P fd) eqn:Ex; auto. exfalso. now apply (i_ext _ _ _ _ _ _ _ _ I fd Ex).
  - (* AExtOpen *)
    step_proc p P Hp. destruct (p_fds P fd) eqn:Hfd; [discriminate|].
    injection E as <-. eapply sinv_local; eauto. intros I.
    replace (with_ext (with_fds P (upd Z.eqb (p_fds P) fd (Some u))) (upd Z.eqb (p_ext P) fd true))
      with (with_ext (with_streams (with_fds P (upd Z.eqb (p_fds P) fd (Some u))) (p_streams P)) (upd Z.eqb (p_ext P) fd true))
      by reflexivity.
    eapply newfd_pinv with (fd := fd) (u := u) (ext := true); eauto.
  - (* AWrap *)
    step_proc p P Hp. destruct (p_fds P fd) as [u|] eqn:Hfd; [|discriminate].
    destruct (p_ext P fd && (0 <? fd)) eqn:Hx; [|discriminate]. apply andb_true_iff in Hx. destruct Hx as [Hx Hpos].
    injection E as <-. eapply sinv_local; eauto. intros I.
    replace (with_streams (with_ext P (upd Z.eqb (p_ext P) fd false)) (upd Z.eqb (p_streams P) fd (Some (mkStream u closefd))))
      with (with_ext (with_streams (with_fds P (p_fds P)) (upd Z.eqb (p_streams P) fd (Some (mkStream u closefd)))) (upd Z.eqb (p_ext P) fd false))
      by reflexivity.
    eapply newfd_pinv with (fd := fd) (u := u) (ext := false); eauto.
    right. split; auto. split; [lia|]. split; [exists closefd; split; auto|]. split; [apply zupd_eq|].
    intros f Hf. apply zupd_neq. auto.
  - (* ALock *)
    step_proc p P Hp. destruct (nth_error (p_thr P) t) as [[]|] eqn:Ht; try discriminate.
    destruct (p_streams P fd) as [st|] eqn:Hst; [|discriminate].
    destruct (negb (is_busy P fd) && good_len len) eqn:Hg; [|discriminate].
    apply andb_true_iff in Hg. destruct Hg as [Hb Hl]. apply negb_true_iff in Hb.
    injection E as <-. eapply sinv_local; eauto. intros I.
    eapply pinv_set_pc; eauto; try discriminate.
    + split; simpl; eauto.
    + right. simpl. intros f [= <-]. auto.
  - (* ARegister *)
    step_proc p P Hp. destruct (nth_error (p_thr P) t) as [[]|] eqn:Ht; try discriminate.
    destruct (mutex_free P) eqn:Hm; [|discriminate].
    destruct (register_once true p (p_reg P) (q_uid q) (q_fd q) (q_len q) (q_off q) (q_shared q)) as [o r] eqn:Er.
    destruct (try_pinv p P (s_holds s) (s_kern s) t q o r) as (P' & EP & IP); auto.
    { eapply s_live; eauto. }
    { intros Hs. apply nso_use. specialize (Dst Hs). simpl in Dst. now rewrite Hp, Ht in Dst. }
    rewrite EP in E. injection E as <-. eapply sinv_local; eauto.
  - (* AWake *)
    step_proc p P Hp. destruct (nth_error (p_thr P) t) as [[| |q nt| | | |]|] eqn:Ht; try discriminate.
    destruct nt; [|discriminate]. destruct (mutex_free P) eqn:Hm; [|discriminate].
    pose proof (s_live _ _ _ _ SI _ _ Hp) as I.
    assert (EW p (p_reg P) (q_uid q) <> 0) as Hw.
    { rewrite (i_wait _ _ _ _ _ _ _ _ I). pose proof (count_wait_pos _ _ _ _ _ Ht eq_refl). lia. }
    destruct (waiting_own _ _ _ Hw) as [Hpid Hex].
    destruct (waiting_eff p (p_reg P) (q_uid q) (-1) Hpid Hex) as (r1 & Er1 & Hpid1 & WL & WD & WW).
    rewrite Er1 in E.
    set (P1 := set_pc (with_reg P r1) t (PLockReg q)).
    assert (pinv None p P1 (s_holds s) (s_kern s)) as I1.
    { eapply pinv_set_pc_reg; eauto; try discriminate.
      - intros v. rewrite WW. simpl. destruct (uid_eqb (q_uid q) v) eqn:Eu; simpl; [|lia].
        apply uid_eqb_eq in Eu. rewrite Eu. lia.
      - exact (i_thr _ _ _ _ _ _ _ _ I _ _ Ht). }
    assert (nth_error (p_thr P1) t = Some (PLockReg q)) as Ht1 by (eapply nth_update_same; eauto).
    destruct (register_once false p r1 (q_uid q) (q_fd q) (q_len q) (q_off q) (q_shared q)) as [o r] eqn:Er.
    assert (register_once true p (p_reg P1) (q_uid q) (q_fd q) (q_len q) (q_off q) (q_shared q) = (o, r)) as Er'.
    { unfold register_once in *. change (p_reg P1) with r1. rewrite cf_own; auto. }
    destruct (try_pinv p P1 (s_holds s) (s_kern s) t q o r) as (P' & EP & IP); auto.
    { intros Hs a Ha. change (p_reg P1) with r1 in Ha. rewrite WL in Ha. revert a Ha.
      apply nso_use. specialize (Dst Hs). simpl in Dst. now rewrite Hp, Ht in Dst. }
    assert (after_try P t q o r = Some P') as EP'.
    { rewrite <- EP. unfold after_try, P1. destruct o as [[]|]; [| |].
      - unfold set_pc, with_thr, with_reg; simpl. now rewrite nth_update_twice.
      - destruct (q_block q); [destruct (add_waiting r (q_uid q) 1)|];
          unfold set_pc, with_thr, with_reg; simpl; auto; now rewrite nth_update_twice.
      - unfold set_pc, with_thr, with_reg; simpl. now rewrite nth_update_twice. }
    rewrite EP' in E. injection E as <-. eapply sinv_local; eauto.
  - (* ARetry *)
    step_proc p P Hp. destruct (nth_error (p_thr P) t) as [[]|] eqn:Ht; try discriminate.
    injection E as <-. eapply sinv_local; eauto. intros I.
    eapply pinv_set_pc; eauto; try discriminate.
    + exact (i_thr _ _ _ _ _ _ _ _ I _ _ Ht).
  - (* AGiveUp *)
    step_proc p P Hp. destruct (nth_error (p_thr P) t) as [[]|] eqn:Ht; try discriminate.
    injection E as <-. eapply sinv_local; eauto. intros I.
    eapply pinv_set_pc; eauto; try discriminate.
    + exact Logic.I.
    + right. discriminate.
  - (* AKern *)
    step_proc p P Hp. destruct (nth_error (p_thr P) t) as [[]|] eqn:Ht; try discriminate.
    pose proof (s_live _ _ _ _ SI _ _ Hp) as I.
    destruct (i_thr _ _ _ _ _ _ _ _ I _ _ Ht) as ((_ & st & Hst & Hu) & _ & _).
    destruct (i_str _ _ _ _ _ _ _ _ I _ _ Hst) as (Hfd & _ & _). rewrite Hfd in E. rewrite Hu in E.
    destruct (q_off q <? 0); [discriminate|].
    rewrite kernel_end_range in E. change (range_end (q_off q) (q_len q)) with (q_end q) in E.
    destruct (ksetlk (s_kern s) p (q_uid q) (q_shared q) (q_off q) (q_end q)) as [K|] eqn:EK; [|discriminate].
    injection E as <-. pose proof (ksetlk_holds _ _ _ _ _ _ _ EK) as KH.
    eapply sinv_one; eauto.
    + eapply kern_pinv; eauto.
    + intros p' u lk Hn. simpl. split; [auto|]. intros [X|]; auto. injection X as X _ _. congruence.
    + intros p' u sh b Hn. rewrite KH. split; [intros X; right; tauto|]. intros [(-> & _)|[X _]]; [congruence|auto].
    + intros p2 u sh1 sh2 b Hn K1 K2. apply KH in K1. destruct K1 as [(_ & -> & -> & Hb)|[K1 _]].
      * destruct (ksetlk_noconflict _ _ _ _ _ _ _ EK p2 sh2 b Hn K2 Hb). auto.
      * apply (s_compat _ _ _ _ SI p p2 u sh1 sh2 b); auto.
  - (* AKernFail *)
    step_proc p P Hp. destruct (nth_error (p_thr P) t) as [[]|] eqn:Ht; try discriminate.
    injection E as <-. eapply sinv_local; eauto. intros I.
    eapply pinv_set_pc; eauto; try discriminate.
    exact (i_thr _ _ _ _ _ _ _ _ I _ _ Ht).
  - (* AUnregister *)
    step_proc p P Hp. destruct (nth_error (p_thr P) t) as [[]|] eqn:Ht; try discriminate.
    destruct (mutex_free P) eqn:Hm; [|discriminate].
    destruct (unregister_file_lock p (p_reg P) (q_uid q) (q_fd q) (q_len q) (q_off q)) as [[x r] n] eqn:Er.
    destruct (unregister_pinv _ _ _ p P (s_holds s) (s_kern s) t q r x n (s_live _ _ _ _ SI _ _ Hp) Ht Hm Er) as (-> & (y & ->) & I).
    injection E as <-. eapply sinv_local; eauto. intros _.
    apply notify_pinv in I. exact I.
  - (* AUnlock *)
    step_proc p P Hp. destruct (nth_error (p_thr P) t) as [[]|] eqn:Ht; try discriminate.
    destruct (p_streams P fd) as [st|] eqn:Hst; [|discriminate].
    destruct (negb (is_busy P fd) && good_len len && (0 <=? off) && mutex_free P) eqn:Hg; [|discriminate].
    rewrite !andb_true_iff, negb_true_iff in Hg. destruct Hg as [[[Hb Hl] Ho] Hm].
    pose proof (s_live _ _ _ _ SI _ _ Hp) as I.
    destruct (unregister_file_lock p (p_reg P) (st_uid st) fd len off) as [[x r] n] eqn:Er.
    destruct (unregister_eff _ _ _ _ _ _ _ _ _ Er) as (_ & SD & SW & SL & C).
    pose proof (i_tab _ _ _ _ _ _ _ _ I (st_uid st)) as HT.
    destruct C as [(-> & -> & EL0 & EL1)|[(y & l1 & lk & l2 & -> & -> & E1 & E2 & L1 & L2 & L3)|(y & -> & -> & SLu & _)]].
    + (* no entry *)
      injection E as <-. eapply sinv_one; eauto.
      * eapply enter_pinv with (keep := fun _ => true) (fd := fd) (st := st) (streams' := p_streams P); eauto; try reflexivity.
        { rewrite EL1. apply tab_nil. }
        { intros a. rewrite EL0, EL1. simpl. tauto. }
        { discriminate. }
        { intros v lk. rewrite filter_In. split; [tauto|]. intros [Hin _]. split; auto.
          destruct (lock_matches p (st_uid st) fd off (range_end off len) (mkHold p v lk)) eqn:El; auto.
          apply lock_matches_spec in El. destruct El as (_ & -> & _).
          apply (i_hold _ _ _ _ _ _ _ _ I) in Hin. rewrite EL0 in Hin. destruct Hin as [[] _]. }
        { intros a b Ha. rewrite EL0 in Ha. destruct Ha. }
        { intros lo hi a b _ Ha. rewrite EL1 in Ha. destruct Ha. }
      * intros p' u lk Hn. rewrite filter_In. split; [intros X; split; auto|tauto].
        destruct (lock_matches p (st_uid st) fd off (range_end off len) (mkHold p' u lk)) eqn:El; auto.
        apply lock_matches_spec in El. destruct El; congruence.
      * tauto.
      * intros p2 u sh1 sh2 b Hn K1 K2. apply (s_compat _ _ _ _ SI p p2 u sh1 sh2 b); auto.
    + (* one record removed *)
      injection E as <-.
      rewrite E1 in HT. destruct (tab_remove _ _ _ _ HT) as (HT' & Hnin & Hcmp). rewrite <- E1 in HT.
      assert (In lk (EL p (p_reg P) (st_uid st))) as Hlk by (rewrite E1; apply in_app_iff; right; now left).
      set (keep := fun a => if lockrec_dec a lk then false else true).
      assert (forall a, keep a = true <-> a <> lk) as Hkeep.
      { intros a. unfold keep. destruct (lockrec_dec a lk); split; congruence. }
      assert (forall a, keep a = false <-> a = lk) as Hkeep'.
      { intros a. unfold keep. destruct (lockrec_dec a lk); split; congruence. }
      assert (forall p' v a, In (mkHold p' v a) (filter (fun x => negb (lock_matches p (st_uid st) fd off (range_end off len) x)) (s_holds s))
         <-> In (mkHold p' v a) (s_holds s) /\ (p' = p -> v = st_uid st -> keep a = true)) as HH.
      { intros p' v a. rewrite filter_In, negb_true_iff. split.
        - intros [Hin Hn]. split; auto. intros -> ->. apply Hkeep. intros ->.
          assert (lock_matches p (st_uid st) fd off (range_end off len) (mkHold p (st_uid st) lk) = true)
            by (apply lock_matches_spec; auto). congruence.
        - intros [Hin Hk]. split; auto.
          destruct (lock_matches p (st_uid st) fd off (range_end off len) (mkHold p' v a)) eqn:El; auto.
          apply lock_matches_spec in El. destruct El as (-> & -> & A1 & A2 & A3).
          assert (a <> lk) as Hne by (apply Hkeep; auto).
          apply (i_hold _ _ _ _ _ _ _ _ I) in Hin. destruct Hin as [Hin _].
          destruct (tab_nonempty _ _ HT lk Hlk) as (b & Hbb).
          destruct (tab_compat _ _ HT a lk Hin Hlk Hne) as (X & _).
          { exists b. split; [|exact Hbb]. unfold rbyte in Hbb. rewrite L2, L3 in Hbb. rewrite A2, A3. exact Hbb. }
          congruence. }
      eapply sinv_one; eauto.
      * match goal with |- pinv None p (with_thr ?Q _) _ _ =>
          change (pinv None p (with_thr Q (notify_all (st_uid st) (p_thr Q))) (filter (fun x => negb (lock_matches p (st_uid st) fd off (range_end off len) x)) (s_holds s)) (s_kern s)) end.
        apply notify_pinv.
        eapply enter_pinv with (keep := keep) (fd := fd) (st := st) (streams' := p_streams P); eauto; try reflexivity.
        { rewrite E2. auto. }
        { intros a. rewrite E2, Hkeep. split.
          - intros Ha. split; [rewrite E1; rewrite in_app_iff in *; simpl; tauto|]. intros ->. auto.
          - intros [Ha Hne]. rewrite E1 in Ha. rewrite in_app_iff in *. simpl in Ha. intuition congruence. }
        { intros a _ Ha. apply Hkeep' in Ha. congruence. }
        { intros v a. rewrite HH. intuition auto. }
        { intros a b _ Ha Hbb. apply Hkeep' in Ha. subst a. eexists _, _. split; [left; reflexivity|].
          unfold rbyte in Hbb. rewrite L2, L3 in Hbb. rewrite kernel_end_range. exact Hbb. }
        { intros lo hi a b [X|[]] Ha Hb1 Hb2. injection X as <- <-. rewrite E2 in Ha.
          destruct (Hcmp a Ha) as (_ & A & _ & B); auto. exists b. split; auto.
          rewrite kernel_end_range in Hb2. rewrite L2, L3. exact Hb2. }
      * intros p' u a Hn. rewrite HH. intuition congruence.
      * tauto.
      * intros p2 u sh1 sh2 b Hn K1 K2. apply (s_compat _ _ _ _ SI p p2 u sh1 sh2 b); auto.
    + (* error *)
      injection E as <-. eapply sinv_local; eauto. apply pinv_same_views.
      intros v. split; [|auto]. destruct (uid_dec v (st_uid st)) as [->|]; auto.
  - (* AClose *)
    step_proc p P Hp. destruct (nth_error (p_thr P) t) as [[]|] eqn:Ht; try discriminate.
    destruct (p_streams P fd) as [st|] eqn:Hst; [|discriminate].
    destruct (negb (is_busy P fd) && mutex_free P) eqn:Hg; [|discriminate].
    rewrite !andb_true_iff, negb_true_iff in Hg. destruct Hg as [Hb Hm].
    pose proof (s_live _ _ _ _ SI _ _ Hp) as I.
    destruct (remove_file_locks p (p_reg P) (st_uid st) fd) as [removed r] eqn:Er.
    destruct (remove_eff _ _ _ _ _ _ Er) as (_ & SD & SW & SL & E1 & E2).
    pose proof (i_tab _ _ _ _ _ _ _ _ I (st_uid st)) as HT.
    injection E as <-.
    set (keep := fun a => negb (lk_handle a =? fd)).
    assert (forall a, keep a = false <-> lk_handle a = fd) as Hkeep'.
    { intros a. unfold keep. rewrite negb_false_iff, Z.eqb_eq. tauto. }
    assert (forall a, keep a = true <-> lk_handle a <> fd) as Hkeep.
    { intros a. unfold keep. rewrite negb_true_iff, Z.eqb_neq. tauto. }
    eapply sinv_one; eauto.
    + eapply enter_pinv with (keep := keep) (fd := fd) (st := st); eauto; try reflexivity.
      * rewrite E2. apply tab_filter. auto.
      * intros a. rewrite E2, filter_In. tauto.
      * intros a _ Ha. now apply Hkeep'.
      * intros v lk. rewrite filter_In, negb_true_iff. split.
        { intros [Hin Hn]. split; auto. intros ->. apply Hkeep. intros Hf.
          assert (owned_by p (st_uid st) fd (mkHold p (st_uid st) lk) = true) by (apply owned_by_spec; auto). congruence. }
        { intros [Hin Hn]. split; auto. destruct (owned_by p (st_uid st) fd (mkHold p v lk)) eqn:Eo; auto.
          apply owned_by_spec in Eo. destruct Eo as (_ & -> & X). specialize (Hn eq_refl). apply Hkeep in Hn. contradiction. }
      * intros a b Ha Hk Hbb. exists (lk_start a), (lk_end a). split; auto. cbn.
        apply in_map_iff. exists a. split; auto. rewrite E1. apply filter_In. split; auto.
        apply Z.eqb_eq. now apply Hkeep'.
      * cbn. intros lo hi a b Hin Ha Hb1 Hb2. apply in_map_iff in Hin. destruct Hin as (c & Ec & Hc). injection Ec as <- <-.
        rewrite E1 in Hc. apply filter_In in Hc. destruct Hc as [Hc1 Hc2]. apply Z.eqb_eq in Hc2.
        rewrite E2 in Ha. apply filter_In in Ha. destruct Ha as [Ha1 Ha2]. fold (keep a) in Ha2. apply Hkeep in Ha2.
        destruct (tab_compat _ _ HT a c Ha1 Hc1) as (_ & A & _ & B); [congruence| |auto].
        exists b. split; auto.
      * right. cbn. split; auto. split; auto. intros a Ha. rewrite E2 in Ha. apply filter_In in Ha.
        destruct Ha as [_ Ha]. now apply Hkeep.
      * right. intros Hpol a Ha. specialize (Dpo Hpol). simpl in Dpo. rewrite Hp, Hst in Dpo.
        apply negb_true_iff in Dpo. apply Hkeep. intros Hf.
        assert (existsb (fun lk => lk_handle lk =? fd) (recorded p P (st_uid st)) = true); [|congruence].
        apply existsb_exists. exists a. split; auto. now apply Z.eqb_eq.
    + intros p' u lk Hn. rewrite filter_In. split; [intros X; split; auto|tauto].
      destruct (owned_by p (st_uid st) fd (mkHold p' u lk)) eqn:Eo; auto.
      apply owned_by_spec in Eo. destruct Eo; congruence.
    + tauto.
    + intros p2 u sh1 sh2 b Hn K1 K2. apply (s_compat _ _ _ _ SI p p2 u sh1 sh2 b); auto.
  - (* AMicro *)
    step_proc p P Hp. destruct (nth_error (p_thr P) t) as [[| | | | | |g]|] eqn:Ht; try discriminate.
    destruct (holds_mutex P t); [|discriminate].
    destruct (micro_pinv _ _ _ p P (s_holds s) (s_kern s) t g (s_live _ _ _ _ SI _ _ Hp) Ht) as (P' & K' & EM & I' & KO & KS).
    rewrite EM in E. injection E as <-. eapply sinv_one; eauto; try tauto.
    intros p2 u sh1 sh2 b Hn K1 K2. apply (s_compat _ _ _ _ SI p p2 u sh1 sh2 b); auto.
Qed.

Lemma exec_sinv ok s acts s' :
  (forall s a, ok s a = true -> strict = true -> no_shared_overlap s a = true) ->
  (forall s a, ok s a = true -> polite = true -> unlock_before_close s a = true) ->
  (forall s a, ok s a = true -> owning = true -> owning_streams s a = true) ->
  sinv s -> exec ok s acts = Some s' -> sinv s'.
Proof.
  intros H1 H2 H3. revert s. induction acts as [|a acts IH]; simpl; intros s I.
  - intros [= <-]. auto.
  - destruct (ok s a) eqn:Eo; [|discriminate]. destruct (step s a) as [s1|] eqn:Es; [|discriminate].
    apply IH. eapply step_sinv; eauto.
Qed.

End MAIN.

Lemma reach_any acts s : exec anything init_sys acts = Some s -> sinv false false false s.
Proof. apply exec_sinv; try discriminate. apply init_sinv. Qed.
Lemma reach_strict acts s : exec no_shared_overlap init_sys acts = Some s -> sinv true false false s.
Proof. apply exec_sinv; try discriminate; auto. apply init_sinv. Qed.
Lemma reach_polite acts s : exec unlock_before_close init_sys acts = Some s -> sinv false true false s.
Proof. apply exec_sinv; try discriminate; auto. apply init_sinv. Qed.
Lemma reach_owning acts s : exec owning_streams init_sys acts = Some s -> sinv false false true s.
Proof. apply exec_sinv; try discriminate; auto. apply init_sinv. Qed.
