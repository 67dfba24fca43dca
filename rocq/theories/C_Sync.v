(** Final theorems about sync(): C38. *)
From Coq Require Import ZArith Ascii String List Bool Lia.
From Verif Require Import M_Base M_Modes M_Registry M_Kernel M_World M_Raw M_Buffered S_Bytes S_Raw S_Locks S_LockFile
  S_Open S_Buffered S_Sync S_Demo P_Bytes P_Raw P_Close P_Frame P_LockFile P_Open P_Buffered P_BufOps P_BufRun C_Buffered.
Import ListNotations.
Open Scope Z_scope.

(** The crash relation does lose data that is only in the cache. *)
Lemma durable_clean w u i : w_inodes w u = Some i -> n_dirty i = false -> durable w u (n_data i).
Proof.
  intros Hi Hd w1 w2 E C. rewrite <- E in Hi. destruct (C _ _ Hi) as (i' & Hi' & X). eauto.
Qed.
Theorem C38_unsynced_not_durable : forall w u i, w_inodes w u = Some i -> n_dirty i = true ->
  forall c, ~ durable w u c.
Proof.
  intros w u i Hi Hd c D.
  set (w2 := fun d => upd_ino w u (mkIno (n_kind i) d false)).
  assert (C : forall d, crash w (w2 d)).
  { intros d v j Hj. unfold w2. destruct (uid_eqb u v) eqn:E.
    - apply P_Raw.uid_eqb_eq in E. subst v. exists (mkIno (n_kind i) d false).
      split; [cbn; apply upd_same, P_Raw.uid_eqb_refl|]. rewrite Hi in Hj. injection Hj as <-. congruence.
    - exists j. split; auto. cbn. now rewrite upd_other. }
  assert (X : forall d, d = c).
  { intros d. destruct (D w (w2 d) eq_refl (C d)) as (j & Hj & <-). unfold w2 in Hj. cbn in Hj.
    rewrite upd_same in Hj by apply P_Raw.uid_eqb_refl. now injection Hj as <-. }
  pose proof (X []) as X0. pose proof (X [0]) as X1. congruence.
Qed.

Lemma flush_disk_cases fd w r w' : sys_flush_to_disk fd w = (r, w') ->
  (r = Ok tt /\ exists o i, w_fds w fd = Some o /\ w_inodes w (o_uid o) = Some i
     /\ w_inodes w' (o_uid o) = Some (mkIno (n_kind i) (n_data i) false))
  \/ ((exists e, r = Err (EOS e)) /\ w_inodes w' = w_inodes w /\ w_fds w' = w_fds w).
Proof.
  unfold sys_flush_to_disk, bind. destruct (get_fd fd w) as [r1 w1] eqn:E. apply get_fd_cases in E.
  destruct E as [-> [->|(o & i & Ho & Hi & ->)]]; [intros [= <- <-]; right; eauto|].
  rewrite next_io_eq. destruct (hd IoFull (w_io w)); intros [= <- <-];
    try (left; split; auto; exists o, i; repeat split; auto; cbn; apply upd_same, P_Raw.uid_eqb_refl).
  right. eauto.
Qed.

(** Any sync() that returns: a kernel flush made after the last write succeeded. *)
Theorem C38_sync_needs_flush : forall has_fdatasync f metadata full_flush w w',
  raw_sync has_fdatasync f metadata full_flush w = (Ok tt, w') ->
  exists o i, w_fds w (fd_of f) = Some o /\ w_inodes w (o_uid o) = Some i
    /\ flushed_to_disk (fd_of f) (o_uid o) (n_data i) w'.
Proof.
  intros h f m ff w w' H. unfold raw_sync, bind, check_closed in H. destruct (f_closed f); [discriminate|].
  cbn [ret] in H.
  (* a flush of the same state of the file *)
  assert (base : forall w0, w_inodes w0 = w_inodes w -> w_fds w0 = w_fds w ->
            sys_flush_to_disk (fd_of f) w0 = (Ok tt, w') ->
            exists o i, w_fds w (fd_of f) = Some o /\ w_inodes w (o_uid o) = Some i
              /\ flushed_to_disk (fd_of f) (o_uid o) (n_data i) w').
  { intros w0 E1 E2 E. pose proof E as E'. apply flush_disk_cases in E.
    destruct E as [(_ & o & i & Ho & Hi & _)|((e & X) & _)]; [|discriminate].
    rewrite E2 in Ho. pose proof Hi as Hi'. rewrite E1 in Hi'. exists o, i. repeat split; auto. exists w0, i. auto. }
  assert (try : forall w0 k, w_inodes w0 = w_inodes w -> w_fds w0 = w_fds w ->
            (forall w1, w_inodes w1 = w_inodes w -> w_fds w1 = w_fds w -> k w1 = (Ok tt, w') ->
              exists o i, w_fds w (fd_of f) = Some o /\ w_inodes w (o_uid o) = Some i
                /\ flushed_to_disk (fd_of f) (o_uid o) (n_data i) w') ->
            attempt_os (sys_flush_to_disk (fd_of f)) k w0 = (Ok tt, w') ->
            exists o i, w_fds w (fd_of f) = Some o /\ w_inodes w (o_uid o) = Some i
              /\ flushed_to_disk (fd_of f) (o_uid o) (n_data i) w').
  { intros w0 k E1 E2 Hk E. unfold attempt_os in E. destruct (sys_flush_to_disk (fd_of f) w0) as [r1 w1] eqn:F.
    pose proof F as F'. apply flush_disk_cases in F. destruct F as [(-> & _)|((e & ->) & A1 & A2)].
    - injection E as <-. apply (base w0); auto.
    - apply (Hk w1); auto; congruence. }
  unfold inner_sync in H.
  assert (step2 : forall w0, w_inodes w0 = w_inodes w -> w_fds w0 = w_fds w ->
            (if negb m && h then attempt_os (sys_flush_to_disk (fd_of f)) (sys_flush_to_disk (fd_of f))
             else sys_flush_to_disk (fd_of f)) w0 = (Ok tt, w') ->
            exists o i, w_fds w (fd_of f) = Some o /\ w_inodes w (o_uid o) = Some i
              /\ flushed_to_disk (fd_of f) (o_uid o) (n_data i) w').
  { intros w0 E1 E2 E. destruct (negb m && h); [eapply try; eauto|eapply base; eauto]. }
  destruct ff; [eapply try; eauto|eapply step2; eauto].
Qed.

(** In which case the content survives. *)
Lemma flushed_durable fd u c o w1 w' i : w_fds w1 fd = Some o -> o_uid o = u ->
  w_inodes w1 u = Some i -> n_data i = c -> sys_flush_to_disk fd w1 = (Ok tt, w') ->
  holds_file w' u c /\ durable w' u c.
Proof.
  intros Ho <- Hi <- H. apply flush_disk_cases in H.
  destruct H as [(_ & o' & i' & Ho' & Hi' & Hf)|((e & X) & _)]; [|discriminate].
  rewrite Ho in Ho'. injection Ho' as <-. rewrite Hi in Hi'. injection Hi' as <-.
  split; [eexists; split; [exact Hf|reflexivity]|]. apply (durable_clean _ _ _ Hf eq_refl).
Qed.
Theorem C38_raw_sync_durable : forall has_fdatasync f metadata full_flush w w',
  raw_sync has_fdatasync f metadata full_flush w = (Ok tt, w') ->
  exists o i, w_fds w (fd_of f) = Some o /\ w_inodes w (o_uid o) = Some i
    /\ holds_file w' (o_uid o) (n_data i) /\ durable w' (o_uid o) (n_data i).
Proof.
  intros h f m ff w w' H. pose proof H as H0. apply C38_sync_needs_flush in H.
  destruct H as (o & i & Ho & Hi & w1 & i1 & Hi1 & Hd & E). exists o, i. repeat (split; auto).
  all: pose proof (raw_sync_within h f m ff _ _ _ H0) as F; pose proof (rf_fd _ _ _ F) as S1;
    pose proof (sys_flush_within (fd_of f) _ _ _ E) as G; pose proof (rf_fd _ _ _ G) as S2;
    unfold same_ofd in S1, S2; rewrite Ho in S1; destruct (w_fds w' (fd_of f)) as [o'|]; try contradiction;
    destruct (w_fds w1 (fd_of f)) as [o1|] eqn:Ho1; try contradiction;
    destruct (flushed_durable (fd_of f) (o_uid o) (n_data i) o1 w1 w' i1) as [A B]; auto; intuition congruence.
Qed.

(** Buffered streams: everything written so far, whatever failed before. *)
Theorem C38_buffered_sync_durable : forall f size ops w o i outs b has_fdatasync metadata full_flush b',
  live f w o i -> o_app o = false -> 0 < size -> f_writable f = true ->
  run_bops BWriter ops (fresh f size w) = (outs, b) ->
  b_sync has_fdatasync BWriter metadata full_flush b = (Ok tt, b') ->
  exists c p, wruns (n_data i, o_pos o) ops outs (c, p)
    /\ holds_file (b_w b') (o_uid o) c /\ durable (b_w b') (o_uid o) c
    /\ flushed_to_disk (fd_of f) (o_uid o) c (b_w b').
Proof.
  intros f size ops w o i outs b h m ff b' L A S Wf E H.
  assert (R : rep BWriter (fresh f size w) o i (n_data i) (o_pos o)) by (apply fresh_rep; auto; discriminate).
  destruct (wruns_ok ops _ _ _ _ _ R A outs b E) as (o1 & i1 & c & p & R1 & V1 & X).
  unfold b_sync, bind in H.
  destruct (b_flush_ok True BWriter b o1 i1 c p R1 ltac:(left; auto)) as (r2 & b2 & o2 & i2 & E2 & [R2 V2 _ _ _ C2]).
  rewrite E2 in H. destruct C2 as [[-> W]|(_ & _ & e & -> & _)]; [|discriminate].
  pose proof (evolves_trans _ _ _ _ _ _ V1 V2) as V. pose proof (ev_raw _ _ _ _ V) as Hr. cbn in Hr.
  pose proof (so_uid _ _ (ev_o _ _ _ _ V)) as Hu. pose proof (rp_live _ _ _ _ _ _ R2) as L2.
  destruct (rep_flat _ _ _ _ _ _ R2 W) as [Hc _]. unfold on_raw in H.
  destruct (raw_sync h (b_raw b2) m ff (b_w b2)) as [r3 w3] eqn:E3. injection H as -> <-. cbn [set_world b_w].
  exists c, p. split; [exact X|].
  destruct (C38_raw_sync_durable _ _ _ _ _ _ E3) as (o3 & i3 & F1 & F2 & F3 & F4).
  destruct (C38_sync_needs_flush _ _ _ _ _ _ E3) as (o4 & i4 & G1 & G2 & G3).
  rewrite (lv_fd _ _ _ _ L2) in F1, G1. injection F1 as <-. injection G1 as <-.
  rewrite (lv_ino _ _ _ _ L2) in F2, G2. injection F2 as <-. injection G2 as <-.
  rewrite Hu, Hc in *. rewrite Hr in G3. auto.
Qed.
(** The same for streams that also read. *)
Theorem C38_buffered_sync_durable_any_kind : forall k f size ops w o i outs b has_fdatasync metadata full_flush b',
  setting k f size w o i ->
  run_bops k ops (fresh f size w) = (outs, b) -> (k = BRandom -> disciplined true (combine ops outs)) ->
  b_sync has_fdatasync k metadata full_flush b = (Ok tt, b') ->
  exists c p, baruns (acc_kind k) (n_data i, o_pos o) ops outs (c, p)
    /\ holds_file (b_w b') (o_uid o) c /\ durable (b_w b') (o_uid o) c
    /\ flushed_to_disk (fd_of f) (o_uid o) c (b_w b').
Proof.
  intros k f size ops w o i outs b h m ff b' S E D H.
  destruct (setting_rep _ _ _ _ _ _ S) as (R & T & P).
  destruct (bruns_ok k ops _ _ _ _ _ true R (se_app _ _ _ _ _ _ S) T P ltac:(intros _ _; reflexivity) outs b E D)
    as (o1 & i1 & c & p & R1 & V1 & X). unfold b_sync, bind in H.
  destruct (b_flush_ok False k b o1 i1 c p R1 (tameb_evolves _ _ _ _ _ V1 T)) as (r2 & b2 & o2 & i2 & E2 & [R2 V2 _ _ _ [[-> W]|[[] _]]]).
  rewrite E2 in H.
  pose proof (evolves_trans _ _ _ _ _ _ V1 V2) as V. pose proof (ev_raw _ _ _ _ V) as Hr. cbn in Hr.
  pose proof (so_uid _ _ (ev_o _ _ _ _ V)) as Hu. pose proof (rp_live _ _ _ _ _ _ R2) as L2.
  destruct (rep_flat _ _ _ _ _ _ R2 W) as [Hc _]. unfold on_raw in H.
  destruct (raw_sync h (b_raw b2) m ff (b_w b2)) as [r3 w3] eqn:E3. injection H as -> <-. cbn [set_world b_w].
  exists c, p. rewrite bacc_acc in X. split; [exact X|].
  destruct (C38_raw_sync_durable _ _ _ _ _ _ E3) as (o3 & i3 & F1 & F2 & F3 & F4).
  destruct (C38_sync_needs_flush _ _ _ _ _ _ E3) as (o4 & i4 & G1 & G2 & G3).
  rewrite (lv_fd _ _ _ _ L2) in F1, G1. injection F1 as <-. injection G1 as <-.
  rewrite (lv_ino _ _ _ _ L2) in F2, G2. injection F2 as <-. injection G2 as <-.
  rewrite Hu, Hc in *. rewrite Hr in G3. auto.
Qed.

(** A stream opened with the "S" flag (O_SYNC) leaves nothing in the cache. *)
Theorem C38_synchronized_write : forall f d w n w' o i,
  live f w o i -> o_sync o = true -> n_dirty i = false ->
  raw_write f d w = (Ok (Some n), w') ->
  exists i', w_inodes w' (o_uid o) = Some i' /\ n_dirty i' = false /\ durable w' (o_uid o) (n_data i').
Proof.
  intros f d w n w' o i L Sy Di H. unfold raw_write, bind in H.
  rewrite (check_closed_live _ _ _ _ L), (check_writable_live _ _ _ _ L) in H. destruct (f_writable f); [|discriminate].
  assert (X : exists i', w_inodes w' (o_uid o) = Some i' /\ n_dirty i' = false).
  { unfold inner_write, sys_write, bind in H. rewrite (get_fd_live _ _ _ _ L) in H.
    destruct (negb (o_wr o)); [discriminate|]. rewrite next_io_eq in H. rewrite (lv_kind _ _ _ _ L), Sy, Di in H.
    destruct (hd IoFull (w_io w)); cbn in H.
    all: repeat match type of H with context [if ?x then _ else _] => destruct x end; try discriminate;
      injection H as _ <-; cbn; rewrite upd_same by apply P_Raw.uid_eqb_refl; eauto. }
  destruct X as (i' & Hi & Hd). exists i'. split; [exact Hi|]. split; [exact Hd|]. now apply durable_clean.
Qed.

(** full_flush fails (Linux has no F_FULLFSYNC), fdatasync succeeds; before, a crash would lose
    the data, buffered or not.  When all three fail, so does sync(). *)
Example C38_example :
  let b := demo_buf BWriter 8 [1;2;3] [IoFull; IoFull; IoFull; IoErr EINVAL; IoFull] in
  let '(_, b1) := run_bops BWriter [BoWrite [4;5]; BoFlush; BoWrite [6]] b in
  let '(r, b2) := b_sync true BWriter false true b1 in
  let '(r', b3) := b_sync true BWriter false true (set_world b1 (set_io (b_w b1) [IoFull; IoErr EINVAL; IoErr EIO; IoErr EIO])) in
  option_map n_dirty (w_inodes (b_w b1) (1, 10)) = Some true
  /\ r = Ok tt /\ w_inodes (b_w b2) (1, 10) = Some (mkIno KReg [4;5;6] false)
  /\ r' = Err (EOS EIO) /\ option_map n_dirty (w_inodes (b_w b3) (1, 10)) = Some true.
Proof. vm_compute. repeat split. Qed.

Print Assumptions C38_unsynced_not_durable.
Print Assumptions C38_sync_needs_flush.
Print Assumptions C38_raw_sync_durable.
Print Assumptions C38_buffered_sync_durable.
Print Assumptions C38_buffered_sync_durable_any_kind.
Print Assumptions C38_synchronized_write.
