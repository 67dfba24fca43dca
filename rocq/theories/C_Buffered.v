(** Final theorems about buffered streams: C31-C35. *)
From Coq Require Import ZArith Ascii String List Bool Lia.
From Verif Require Import M_Base M_Modes M_Registry M_Kernel M_World M_Raw M_Buffered S_Bytes S_Raw S_Locks S_LockFile
  S_Open S_Buffered S_Demo P_Bytes P_Raw P_Close P_Frame P_LockFile P_Open P_Buffered P_BufOps P_BufRun.
Import ListNotations.
Open Scope Z_scope.

(** * C31: buffered streams refine a byte array

    A raw stream [f] on a regular file that is not in append mode, with a buffer of any
    positive size put on it.  System calls may handle fewer bytes than asked but do not
    fail.  The stream's rights are those of its kind. *)
Record setting (k : bkind) (f : rawio) (size : Z) (w : world) (o : ofd) (i : inode) : Prop := mkSetting {
  se_live : live f w o i;
  se_app : o_app o = false;
  se_size : 0 < size;
  se_rd : (k <> BWriter -> f_readable f = true) /\ (f_readable f = true -> o_rd o = true);
  se_wr : (k <> BReader -> f_writable f = true) /\ (f_writable f = true -> o_wr o = true);
  se_io : forall e, ~ In (IoErr e) (w_io w) }.

Definition acc_kind (k : bkind) : bacc :=
  match k with BReader => mkBacc true false | BWriter => mkBacc false true | BRandom => mkBacc true true end.

Lemma bacc_acc k : bacc_of k = acc_kind k.
Proof. destruct k; reflexivity. Qed.

Lemma setting_rep k f size w o i : setting k f size w o i ->
  rep k (fresh f size w) o i (n_data i) (o_pos o) /\ tameb False (fresh f size w) o /\ no_epipe w.
Proof.
  intros [L A S [R1 R2] [W1 W2] Io]. split; [|split].
  - apply fresh_rep; auto; intros K; [apply R1|apply W1]; destruct k; discriminate.
  - right. split; [exact Io|]. split; auto.
  - intros X. eapply Io; eauto.
Qed.

(** The file in [w]. *)
Definition holds_file (w : world) (u : uid) (c : list Z) : Prop := exists i, w_inodes w u = Some i /\ n_data i = c.

Theorem C31_buffered_refines_byte_array_partial : forall k f size ops w o i outs b',
  setting k f size w o i ->
  run_bops k ops (fresh f size w) = (outs, b') ->
  (k = BRandom -> disciplined true (combine ops outs)) ->
  exists c p, baruns (acc_kind k) (n_data i, o_pos o) ops outs (c, p)
    /\ exists b'', b_flush k b' = (Ok tt, b'') /\ holds_file (b_w b'') (o_uid o) c.
Proof.
  intros k f size ops w o i outs b' S E D. destruct (setting_rep _ _ _ _ _ _ S) as (R & T & P).
  destruct (bruns_ok k ops _ _ _ _ _ true R (se_app _ _ _ _ _ _ S) T P ltac:(intros _ _; reflexivity) outs b' E D)
    as (o' & i' & c & p & R' & V' & X).
  exists c, p. rewrite bacc_acc in X. split; [exact X|].
  destruct (b_flush_ok False k b' o' i' c p R' (tameb_evolves _ _ _ _ _ V' T)) as (r & b'' & o'' & i'' & E'' & [R'' V'' _ _ _ [[-> W]|[[] _]]]).
  exists b''. split; [exact E''|]. exists i''. split; [|apply (rep_flat _ _ _ _ _ _ R'' W)].
  rewrite <- (lv_ino _ _ _ _ (rp_live _ _ _ _ _ _ R'')). f_equal.
  now rewrite (so_uid _ _ (ev_o _ _ _ _ V'')), (so_uid _ _ (ev_o _ _ _ _ V')).
Qed.

(** A reader or a writer: no discipline needed. *)
Corollary C31_one_way_streams_refine : forall k f size ops w o i outs b',
  k <> BRandom -> setting k f size w o i ->
  run_bops k ops (fresh f size w) = (outs, b') ->
  exists c p, baruns (acc_kind k) (n_data i, o_pos o) ops outs (c, p)
    /\ exists b'', b_flush k b' = (Ok tt, b'') /\ holds_file (b_w b'') (o_uid o) c.
Proof. intros. eapply C31_buffered_refines_byte_array_partial; eauto. congruence. Qed.

(** What close() leaves in the file. *)
Definition demo_buf (k : bkind) (size : Z) (data : list Z) (io : list ioev) : bstate :=
  let '(f, w) := demo_open "f" (match k with BWriter => false | _ => true end)
                           (match k with BReader => false | _ => true end) false (demo data io [] []) in
  fresh f size w.

Example C31_example : (* short counts: the first system calls handle 1, 2, 1... bytes *)
  let b := demo_buf BRandom 4 [1;2;3;4;5;6] [IoFull; IoShort 1; IoShort 2; IoShort 1; IoFull; IoShort 3; IoFull] in
  let '(outs, b') := run_bops BRandom
     [BoRead (Some 3); BoTell; BoWrite [9;9;9;9;9;9]; BoSize; BoSeek (-2) 2; BoPeek 0; BoRead None; BoSeek 1 0; BoTruncate None; BoTell] b in
  outs = [OBytes [1;2;3]; OInt 3; OInt 6; OInt 9; OInt 7; OBytes [9;9]; OBytes [9;9]; OInt 1; OInt 1; OInt 1]
  /\ content (b_w b') (1, 10) = [1].
Proof. vm_compute. auto. Qed.
Example C31_setting_inhabited :
  let '(f, w) := demo_open "f" true true false (demo [1;2;3] [] [] []) in
  exists o i, setting BRandom f 8 w o i.
Proof.
  cbn -[Z.of_nat]. eexists _, _. constructor; [constructor; try reflexivity; cbn; lia|reflexivity|lia|auto|auto|intros e []].
Qed.

(** Without the discipline the property is false of streams that read and write. *)
Definition refines_without_discipline (k : bkind) : Prop := forall f size ops w o i outs b',
  setting k f size w o i -> run_bops k ops (fresh f size w) = (outs, b') ->
  exists s, baruns (acc_kind k) (n_data i, o_pos o) ops outs s.

(** truncate() keeps bytes already read ahead: they are returned although they are no more
    in the file. *)
Lemma baruns_inv a s op ops out outs s2 : baruns a s (op :: ops) (out :: outs) s2 ->
  exists s1, bastep a s op out s1 /\ baruns a s1 ops outs s2.
Proof. intros H. inversion H; subst. eauto. Qed.
Lemma read_inv a c p n d c' p' : bastep a (c, p) (BoRead n) (OBytes d) (c', p') -> c' = c /\ p' = p + len d /\ slice_at c p d.
Proof. intros H. inversion H; subst; auto. match goal with X : rest_from _ _ _ |- _ => destruct X end. auto. Qed.
Lemma trunc_inv a c p s n c' p' : bastep a (c, p) (BoTruncate s) (OInt n) (c', p') -> len c' = n /\ p' = p.
Proof. intros H. inversion H; subst; auto. match goal with X : resized _ _ _ |- _ => destruct X end. auto. Qed.
Lemma err_inv a c p op e c' p' : bastep a (c, p) op (OErr e) (c', p') -> c' = c /\ p' = p.
Proof. intros H. inversion H; subst; auto. Qed.
Lemma tell_inv a c p n c' p' : bastep a (c, p) BoTell (OInt n) (c', p') -> n = p.
Proof. intros H. inversion H; subst; auto. Qed.

Lemma demo_setting : exists f w o i, demo_open "f" true true false (demo [1;2;3;4;5;6] [] [] []) = (f, w)
  /\ setting BRandom f 8 w o i /\ n_data i = [1;2;3;4;5;6] /\ o_pos o = 0.
Proof.
  eexists _, _, _, _. split; [vm_compute; reflexivity|].
  split; [constructor; [constructor; try reflexivity; cbn; lia|reflexivity|lia|cbn; auto|cbn; auto|intros e []]|split; reflexivity].
Qed.

Theorem C31_truncate_refuted : ~ refines_without_discipline BRandom.
Proof.
  intros H. destruct demo_setting as (f & w & o & i & Eo & S & D & P).
  destruct (run_bops BRandom [BoRead (Some 2); BoTruncate (Some 2); BoRead (Some 2)] (fresh f 8 w)) as [outs b'] eqn:E.
  specialize (H f 8 _ w o i outs b' S E). rewrite D, P in H.
  assert (outs = [OBytes [1;2]; OInt 2; OBytes [3;4]]) as ->.
  { vm_compute in Eo. injection Eo as <- <-. vm_compute in E. injection E as <- _. reflexivity. }
  destruct H as (s & H). apply baruns_inv in H as ([c1 p1] & H1 & H). apply baruns_inv in H as ([c2 p2] & H2 & H).
  apply baruns_inv in H as ([c3 p3] & H3 & _).
  apply read_inv in H1 as (-> & -> & _). apply trunc_inv in H2 as (L & ->). apply read_inv in H3 as (-> & _ & [[X|X] _]); [discriminate|].
  unfold len in *. cbn [length] in *. lia.
Qed.

(** A seek() that fails after a read leaves the stream at the wrong place. *)
Theorem C31_failed_seek_refuted : ~ refines_without_discipline BRandom.
Proof.
  intros H. destruct demo_setting as (f & w & o & i & Eo & S & D & P).
  destruct (run_bops BRandom [BoRead (Some 2); BoSeek (-100) 0; BoTell] (fresh f 8 w)) as [outs b'] eqn:E.
  specialize (H f 8 _ w o i outs b' S E). rewrite D, P in H.
  assert (outs = [OBytes [1;2]; OErr (EOS EINVAL); OInt 0]) as ->.
  { vm_compute in Eo. injection Eo as <- <-. vm_compute in E. injection E as <- _. reflexivity. }
  destruct H as (s & H). apply baruns_inv in H as ([c1 p1] & H1 & H). apply baruns_inv in H as ([c2 p2] & H2 & H).
  apply baruns_inv in H as ([c3 p3] & H3 & _).
  apply read_inv in H1 as (-> & -> & _). apply err_inv in H2 as (-> & ->). apply tell_inv in H3. discriminate.
Qed.

(** * C32: a failing flush loses nothing

    System calls fail at will.  [wruns]: after each call, failed or not, the file with the
    pending bytes is what the calls accepted so far make it; in particular a flush that
    fails changes nothing and the next successful one (or close) completes the file. *)
Theorem C32_failing_flush : forall f size ops w o i outs b',
  live f w o i -> o_app o = false -> 0 < size -> f_writable f = true ->
  run_bops BWriter ops (fresh f size w) = (outs, b') ->
  exists c p, wruns (n_data i, o_pos o) ops outs (c, p)
    /\ (* what is in the file, with what is still buffered *)
       (exists i' o', w_inodes (b_w b') (o_uid o) = Some i' /\ w_fds (b_w b') (fd_of f) = Some o'
          /\ o_pos o' + len (b_wbuf b') = p
          /\ stored_at (n_data i') (o_pos o') (b_wbuf b') c)
    /\ (* a flush keeps it, and completes the file if it succeeds *)
       (forall r b'', b_flush BWriter b' = (r, b'') ->
          exists i'' o'', w_inodes (b_w b'') (o_uid o) = Some i'' /\ w_fds (b_w b'') (fd_of f) = Some o''
          /\ stored_at (n_data i'') (o_pos o'') (b_wbuf b'') c
          /\ (r = Ok tt -> n_data i'' = c /\ b_wbuf b'' = [])).
Proof.
  intros f size ops w o i outs b' L A S Wf E.
  assert (R : rep BWriter (fresh f size w) o i (n_data i) (o_pos o)) by (apply fresh_rep; auto; discriminate).
  destruct (wruns_ok ops _ _ _ _ _ R A outs b' E) as (o' & i' & c & p & R' & V' & X).
  pose proof (so_uid _ _ (ev_o _ _ _ _ V')) as U. pose proof (ev_raw _ _ _ _ V') as Rw. cbn in Rw.
  assert (A' : o_app o' = false) by (rewrite (so_app _ _ (ev_o _ _ _ _ V')); exact A).
  assert (Fd : forall b o i, rep BWriter b o i c p -> o_app o = false -> stored_at (n_data i) (o_pos o) (b_wbuf b) c /\ o_pos o + len (b_wbuf b) = p).
  { intros b1 o1 i1 R1 A1. pose proof (lv_pos _ _ _ _ (rp_live _ _ _ _ _ _ R1)). rewrite (rp_c _ _ _ _ _ _ R1), (epos_plain _ _ _ A1). split; [now apply stored_write|].
    pose proof (rp_p _ _ _ _ _ _ R1) as Y. rewrite (epos_plain _ _ _ A1), (unread_nil _ (rp_nord _ _ _ _ _ _ R1 eq_refl)), len_nil in Y. lia. }
  exists c, p. split; [exact X|]. split.
  - exists i', o'. rewrite <- U. rewrite (lv_ino _ _ _ _ (rp_live _ _ _ _ _ _ R')). split; [reflexivity|].
    rewrite <- Rw. rewrite (lv_fd _ _ _ _ (rp_live _ _ _ _ _ _ R')). split; [reflexivity|].
    destruct (Fd _ _ _ R' A'). split; auto.
  - intros r b'' Ef.
    destruct (b_flush_ok True BWriter b' o' i' c p R' ltac:(left; auto)) as (r2 & b2 & o2 & i2 & E2 & [R2 V2 _ _ _ C2]).
    rewrite Ef in E2. injection E2 as <- <-. pose proof (so_uid _ _ (ev_o _ _ _ _ V2)) as U2.
    exists i2, o2. rewrite <- U, <- U2. rewrite (lv_ino _ _ _ _ (rp_live _ _ _ _ _ _ R2)). split; [reflexivity|].
    rewrite <- Rw, <- (ev_raw _ _ _ _ V2). rewrite (lv_fd _ _ _ _ (rp_live _ _ _ _ _ _ R2)). split; [reflexivity|].
    split; [apply (Fd _ _ _ R2); rewrite (so_app _ _ (ev_o _ _ _ _ V2)); exact A'|]. intros ->. destruct C2 as [[_ Wb]|(_ & _ & e & Z & _)]; [|discriminate].
    split; [apply (rep_flat _ _ _ _ _ _ R2 Wb)|exact Wb].
Qed.

Example C32_example : (* the disk is full after two bytes, then not any more *)
  let b := demo_buf BWriter 4 [1;2;3] [IoFull; IoShort 2; IoErr ENOSPC; IoFull] in
  let '(outs, b1) := run_bops BWriter [BoWrite [7;8]; BoWrite [9]; BoFlush] b in
  let '(outs2, b2) := run_bops BWriter [BoFlush] b1 in
  outs = [OInt 2; OInt 1; OErr (EOS ENOSPC)] /\ content (b_w b1) (1, 10) = [7;8;3]
  /\ outs2 = [OUnit] /\ content (b_w b2) (1, 10) = [7;8;9].
Proof. vm_compute. auto. Qed.

(** * C33: after lock_file() reads are fresh *)

Lemma reset_ok faults k b o i c p : rep k b o i c p -> tameb faults b o ->
  exists r b' o' i', reset_buffers k b = (r, b') /\ evolves b b' o o' /\ rep k b' o' i' c p
    /\ ((r = Ok tt /\ b_rbuf b' = [] /\ b_wbuf b' = [] /\ n_data i' = c /\ o_pos o' = p)
        \/ (faults /\ exists e, r = Err e /\ os_or_block e)).
Proof.
  intros R T. unfold reset_buffers, bind. pose proof (rp_nn _ _ _ _ _ _ R) as Pn.
  destruct (b_seek_ok faults k b o i c p 0 1 R T) as (r & b' & o' & i' & -> & V & X).
  unfold seek_outcome in X. change (seek_target c p 0 1) with (Some (p + 0)) in X. rewrite Z.add_0_r in X.
  destruct X as [(t & [= <-] & Ht & -> & R' & Er & Ew)|[(t & [= <-] & Ht & _)|[(X & _)|(F & (e & -> & He) & R' & _)]]];
    [|lia|discriminate|].
  - exists (Ok tt), b', o', i'. split; [reflexivity|]. split; [exact V|]. split; [exact R'|]. left.
    destruct (rep_flat _ _ _ _ _ _ R' Ew) as [A B]. rewrite (unread_nil _ Er), len_nil in B. repeat split; auto. lia.
  - exists (Err e), b', o', i'. split; [reflexivity|]. split; [exact V|]. split; [exact R'|]. right. eauto.
Qed.

(** In every state of the stream, even one reached through failing calls, and in append mode
    too: once the lock is obtained, nothing is left in the buffers. *)
Lemma flush_loop_empty n : forall b u b', flush_loop n b = (Ok u, b') ->
  b_wbuf b' = [] /\ b_rbuf b' = b_rbuf b /\ b_raw b' = b_raw b /\ b_size b' = b_size b.
Proof.
  induction n as [|n IH]; intros b u b'; cbn [flush_loop]; [discriminate|].
  destruct (b_wbuf b) as [|z l] eqn:W; [intros [= _ <-]; auto|].
  unfold bind, on_raw. destruct (raw_write (b_raw b) (z :: l) (b_w b)) as [[[m|]|e] w']; try discriminate.
  destruct (_ || _); [discriminate|]. intros H. apply IH in H. exact H.
Qed.
Theorem C33_buffers_dropped : forall k timeout length offset whence shared cm b b',
  (k = BReader -> b_wbuf b = []) -> (k = BWriter -> b_rbuf b = []) ->
  b_lock_file k timeout length offset whence shared b = (Ok cm, b') ->
  b' = mkB (b_raw b) (b_size b) [] (b_rpos b') [] (b_w b')
  /\ exists w1, raw_lock_file (b_raw b) timeout length offset whence shared w1 = (Ok cm, b_w b').
Proof.
  intros k timeout length offset whence shared cm b b' Hr Hw H.
  assert (X : forall u b1, reset_buffers k b = (Ok u, b1) ->
            b_wbuf b1 = [] /\ b_rbuf b1 = [] /\ b_raw b1 = b_raw b /\ b_size b1 = b_size b).
  { clear H. intros u b1. unfold reset_buffers, bind.
    destruct (b_seek k 0 1 b) as [[n|e] b2] eqn:E; [|discriminate]. intros [= _ <-].
    unfold b_seek in E. change (negb (valid_whence 1)) with false in E. cbv iota in E. destruct k.
    - unfold bind, b_check_closed in E. destruct (f_closed (b_raw b)); [discriminate|]. unfold mixin_seek, bind, on_raw in E.
      destruct (raw_seek _ _ _ _) as [[m|] w']; [|discriminate]. destruct (m <? 0); [discriminate|].
      cbn in E. injection E as _ <-. cbn. auto.
    - unfold flush_unlocked, bind, b_check_closed in E. destruct (f_closed (b_raw b)); [discriminate|].
      destruct (flush_loop _ b) as [[u2|] b3] eqn:F; [|discriminate]. apply flush_loop_empty in F. destruct F as (A1 & A2 & A3 & A4).
      unfold mixin_seek, bind, on_raw in E. destruct (raw_seek _ _ _ _) as [[m|] w']; [|discriminate].
      destruct (m <? 0); [discriminate|]. cbn in E. injection E as _ <-. cbn. rewrite A2. auto.
    - unfold flush_unlocked, bind, b_check_closed in E. destruct (f_closed (b_raw b)); [discriminate|].
      destruct (flush_loop _ b) as [[u2|] b3] eqn:F; [|discriminate]. apply flush_loop_empty in F. destruct F as (A1 & A2 & A3 & A4).
      assert (Y : forall u3 b4, (match b_rbuf b3 with [] => (Ok tt, b3) | _ => undo_readahead b3 end) = (Ok u3, b4) ->
                b_wbuf b4 = [] /\ b_raw b4 = b_raw b3 /\ b_size b4 = b_size b3).
      { intros u3 b4. destruct (b_rbuf b3); [intros [= _ <-]; auto|]. unfold undo_readahead, bind, on_raw.
        destruct (raw_seek _ _ _ _) as [[m|] w']; [|discriminate]. intros [= _ <-]. auto. }
      destruct (match b_rbuf b3 with [] => _ | _ => _ end) as [[u3|] b4]; [|discriminate].
      destruct (Y _ _ eq_refl) as (B1 & B2 & B3).
      unfold on_raw, reset_read_buf in E. destruct (raw_seek _ _ _ _) as [[m|] w']; [|discriminate].
      destruct (m <? 0); [discriminate|]. cbn in E. injection E as _ <-. cbn. rewrite B2, B3. auto. }
  unfold b_lock_file, bind in H. destruct (reset_buffers k b) as [[u|] b1]; [|discriminate].
  destruct (X _ _ eq_refl) as (X1 & X2 & X3 & X4). unfold on_raw in H.
  destruct (raw_lock_file (b_raw b1) timeout length offset whence shared (b_w b1)) as [r w2] eqn:E2.
  injection H as -> <-. destruct b1. cbn in *. subst. split; [reflexivity|eauto].
Qed.

(** The file as others left it ([i1] with content [c] when the lock was asked for, [i2] when it
    was obtained) is what is read and written from then on, at the stream's position.
    [ops0]: whatever was done with the stream before. *)
Theorem C33_fresh_after_lock : forall k f size ops0 w o i outs0 b timeout length offset whence shared cm b',
  setting k f size w o i ->
  run_bops k ops0 (fresh f size w) = (outs0, b) ->
  (k = BRandom -> disciplined true (combine ops0 outs0)) ->
  b_lock_file k timeout length offset whence shared b = (Ok cm, b') ->
  exists c p w1 i1 i2,
    baruns (acc_kind k) (n_data i, o_pos o) ops0 outs0 (c, p)
    (* everything written before is in the file when the lock is asked for *)
    /\ raw_lock_file f timeout length offset whence shared w1 = (Ok cm, b_w b')
    /\ w_kern w1 = w_kern w /\ w_reg w1 = w_reg w
    /\ w_inodes w1 (o_uid o) = Some i1 /\ n_data i1 = c
    /\ w_inodes (b_w b') (o_uid o) = Some i2 /\ others_only (w_env w1) i1 i2
    /\ forall ops outs b'', run_bops k ops b' = (outs, b'') ->
         (k = BRandom -> disciplined true (combine ops outs)) ->
         exists c' p', baruns (acc_kind k) (n_data i2, p) ops outs (c', p').
Proof.
  intros k f size ops0 w o i outs0 b timeout length offset whence shared cm b' S E D H.
  destruct (setting_rep _ _ _ _ _ _ S) as (R & T & P).
  destruct (bruns_ok k ops0 _ _ _ _ _ true R (se_app _ _ _ _ _ _ S) T P ltac:(intros _ _; reflexivity) outs0 b E D)
    as (o1 & i1 & c & p & R1 & V1 & X).
  pose proof (tameb_evolves _ _ _ _ _ V1 T) as T1. pose proof (no_epipe_evolves _ _ _ _ V1 P) as P1.
  unfold b_lock_file, bind in H.
  destruct (reset_ok False k b o1 i1 c p R1 T1) as (r & b2 & o2 & i2 & E2 & V2 & R2 & [(-> & Er & Ew & Hc & Hp)|([] & _)]).
  rewrite E2 in H. unfold on_raw in H.
  destruct (raw_lock_file (b_raw b2) timeout length offset whence shared (b_w b2)) as [r3 w3] eqn:E3.
  injection H as -> <-.
  pose proof (evolves_trans _ _ _ _ _ _ V1 V2) as V. pose proof (ev_frame _ _ _ _ V) as F.
  pose proof (ev_raw _ _ _ _ V) as Hr. cbn in Hr. pose proof (so_uid _ _ (ev_o _ _ _ _ V)) as Hu.
  pose proof (rp_live _ _ _ _ _ _ R2) as L2.
  pose proof (lock_file_touched _ _ _ _ _ _ _ _ _ E3 (o_uid o)) as Tc.
  pose proof (lock_file_env _ _ _ _ _ _ _ _ _ E3) as (_ & _ & _ & Hio & Hfd).
  rewrite <- Hu in Tc. rewrite (lv_ino _ _ _ _ L2) in Tc. unfold touched in Tc.
  destruct (w_inodes w3 (o_uid o2)) as [i3|] eqn:Ei3; [|contradiction].
  exists c, p, (b_w b2), i2, i3. rewrite bacc_acc in X. rewrite <- Hu, <- Hr.
  split; [exact X|]. split; [exact E3|]. split; [apply (fr_kern _ _ _ _ F)|]. split; [apply (fr_reg _ _ _ _ F)|].
  split; [apply (lv_ino _ _ _ _ L2)|]. split; [exact Hc|]. split; [exact Ei3|]. split; [exact Tc|].
  intros ops outs b'' E4 D4.
  assert (L3 : live (b_raw b2) w3 o2 i3).
  { constructor; [now rewrite Hfd, (lv_fd _ _ _ _ L2)|exact Ei3| |apply (lv_pos _ _ _ _ L2)|apply (lv_open _ _ _ _ L2)|apply (lv_seek _ _ _ _ L2)].
    destruct Tc as [-> |(ev & d & _ & _ & ->)]; [|cbn [n_kind]]; apply (lv_kind _ _ _ _ L2). }
  assert (R3 : rep k (set_world b2 w3) o2 i3 (n_data i3) p).
  { destruct R2. constructor; cbn [set_world b_raw b_w b_size b_rbuf b_rpos b_wbuf]; auto.
    - now rewrite Ew, write_at_nil.
    - rewrite (epos_clean _ _ _ Ew) in rp_p. now rewrite epos_clean by exact Ew.
    - change (unread (set_world b2 w3)) with (unread b2). rewrite (unread_nil _ Er). apply slice_nil. }
  assert (T3 : tameb False (set_world b2 w3) o2).
  { pose proof (tameb_evolves _ _ _ _ _ V T) as [[]|(A1 & A2)]. right. split; [|exact A2].
    intros e Hin. apply (A1 e), Hio, Hin. }
  assert (A3 : o_app o2 = false) by (rewrite (so_app _ _ (ev_o _ _ _ _ V)); apply (se_app _ _ _ _ _ _ S)).
  assert (P3 : no_epipe w3) by (intros Hin; apply (no_epipe_evolves _ _ _ _ V P), Hio, Hin).
  destruct (bruns_ok k ops _ _ _ _ _ true R3 A3 T3 P3 ltac:(intros _ _; exact Er) outs b'' E4 D4)
    as (o4 & i4 & c4 & p4 & _ & _ & Y).
  rewrite bacc_acc in Y. eauto.
Qed.

(** The buffer is full of read-ahead; while the lock is waited for, another process
    rewrites the file. *)
Example C33_example :
  let '(f, w) := demo_open "f" true false false
      (demo [1;2;3;4;5;6] [] [mkEv 1 (Some []) None (Some [11;12;13;14])] [mkSeg 200 (1, 10) false 0 None]) in
  let b := fresh f 8 w in
  let '(o1, b1) := run_bops BReader [BoRead (Some 2)] b in
  let '(_, b2) := b_lock_file BReader (PInt 9) PNone PNone 0 SNone b1 in
  o1 = [OBytes [1;2]] /\ unread b1 = [3;4;5;6] /\ fst (run_bops BReader [BoTell; BoRead None] b2) = [OInt 2; OBytes [13;14]].
Proof. vm_compute. auto. Qed.

(** * C34: writes reach the file before the lock is released *)

(** unlock_file(): the lock tables change only once the file has everything, or not at all. *)
Theorem C34_unlock_flushes_first : forall f size ops w o i outs b length offset whence r b',
  live f w o i -> o_app o = false -> 0 < size -> f_writable f = true ->
  run_bops BWriter ops (fresh f size w) = (outs, b) ->
  b_unlock_file BWriter length offset whence b = (r, b') ->
  exists c p, wruns (n_data i, o_pos o) ops outs (c, p)
    /\ ( (exists w1, holds_file w1 (o_uid o) c /\ w_kern w1 = w_kern w /\ w_reg w1 = w_reg w
            /\ raw_unlock_file f length offset whence w1 = (r, b_w b'))
       \/ (w_kern (b_w b') = w_kern w /\ w_reg (b_w b') = w_reg w /\ exists e, r = Err e /\ os_or_block e) ).
Proof.
  intros f size ops w o i outs b length offset whence r b' L A S Wf E H.
  assert (R : rep BWriter (fresh f size w) o i (n_data i) (o_pos o)) by (apply fresh_rep; auto; discriminate).
  destruct (wruns_ok ops _ _ _ _ _ R A outs b E) as (o1 & i1 & c & p & R1 & V1 & X).
  exists c, p. split; [exact X|]. unfold b_unlock_file, bind in H.
  destruct (reset_ok True BWriter b o1 i1 c p R1 ltac:(left; auto)) as (r2 & b2 & o2 & i2 & E2 & V2 & R2 & C2).
  rewrite E2 in H. pose proof (evolves_trans _ _ _ _ _ _ V1 V2) as V. pose proof (ev_frame _ _ _ _ V) as F.
  pose proof (ev_raw _ _ _ _ V) as Hr. cbn in Hr.
  destruct C2 as [(-> & Er & Ew & Hc & Hp)|(_ & e & -> & He)].
  - left. exists (b_w b2). unfold on_raw in H.
    destruct (raw_unlock_file (b_raw b2) length offset whence (b_w b2)) as [r3 w3] eqn:E3. injection H as -> <-.
    split; [|split; [apply (fr_kern _ _ _ _ F)|split; [apply (fr_reg _ _ _ _ F)|rewrite <- Hr; exact E3]]].
    exists i2. split; [|exact Hc]. rewrite <- (so_uid _ _ (ev_o _ _ _ _ V)). apply (lv_ino _ _ _ _ (rp_live _ _ _ _ _ _ R2)).
  - injection H as <- <-. right. split; [apply (fr_kern _ _ _ _ F)|]. split; [apply (fr_reg _ _ _ _ F)|eauto].
Qed.

(** The same for streams that read and write, system calls working. *)
Theorem C34_unlock_flushes_first_random : forall k f size ops w o i outs b length offset whence r b',
  setting k f size w o i ->
  run_bops k ops (fresh f size w) = (outs, b) -> (k = BRandom -> disciplined true (combine ops outs)) ->
  b_unlock_file k length offset whence b = (r, b') ->
  exists c p w1, baruns (acc_kind k) (n_data i, o_pos o) ops outs (c, p)
    /\ holds_file w1 (o_uid o) c /\ w_kern w1 = w_kern w /\ w_reg w1 = w_reg w
    /\ raw_unlock_file f length offset whence w1 = (r, b_w b').
Proof.
  intros k f size ops w o i outs b length offset whence r b' S E D H.
  destruct (setting_rep _ _ _ _ _ _ S) as (R & T & P).
  destruct (bruns_ok k ops _ _ _ _ _ true R (se_app _ _ _ _ _ _ S) T P ltac:(intros _ _; reflexivity) outs b E D)
    as (o1 & i1 & c & p & R1 & V1 & X). unfold b_unlock_file, bind in H.
  destruct (reset_ok False k b o1 i1 c p R1 (tameb_evolves _ _ _ _ _ V1 T)) as (r2 & b2 & o2 & i2 & E2 & V2 & R2 & [(-> & Er & Ew & Hc & Hp)|([] & _)]).
  rewrite E2 in H. pose proof (evolves_trans _ _ _ _ _ _ V1 V2) as V. pose proof (ev_frame _ _ _ _ V) as F.
  pose proof (ev_raw _ _ _ _ V) as Hr. cbn in Hr. unfold on_raw in H.
  destruct (raw_unlock_file (b_raw b2) length offset whence (b_w b2)) as [r3 w3] eqn:E3. injection H as -> <-.
  exists c, p, (b_w b2). rewrite bacc_acc in X. split; [exact X|].
  split; [|split; [apply (fr_kern _ _ _ _ F)|split; [apply (fr_reg _ _ _ _ F)|rewrite <- Hr; exact E3]]].
  exists i2. split; [|exact Hc]. rewrite <- (so_uid _ _ (ev_o _ _ _ _ V)). apply (lv_ino _ _ _ _ (rp_live _ _ _ _ _ _ R2)).
Qed.

(** close(), system calls working: the raw stream, hence its locks, is closed with everything
    in the file. *)
Theorem C34_close_flushes_first_partial : forall k f size ops w o i outs b r b',
  setting k f size w o i ->
  run_bops k ops (fresh f size w) = (outs, b) -> (k = BRandom -> disciplined true (combine ops outs)) ->
  b_close k b = (r, b') ->
  exists c p w1, baruns (acc_kind k) (n_data i, o_pos o) ops outs (c, p)
    /\ holds_file w1 (o_uid o) c /\ w_kern w1 = w_kern w /\ w_reg w1 = w_reg w
    /\ raw_close f w1 = (r, b_w b') /\ holds_file (b_w b') (o_uid o) c.
Proof.
  intros k f size ops w o i outs b r b' S E D H.
  destruct (setting_rep _ _ _ _ _ _ S) as (R & T & P).
  destruct (bruns_ok k ops _ _ _ _ _ true R (se_app _ _ _ _ _ _ S) T P ltac:(intros _ _; reflexivity) outs b E D)
    as (o1 & i1 & c & p & R1 & V1 & X). unfold b_close in H.
  rewrite (lv_open _ _ _ _ (rp_live _ _ _ _ _ _ R1)) in H. unfold finally in H.
  destruct (b_flush_ok False k b o1 i1 c p R1 (tameb_evolves _ _ _ _ _ V1 T)) as (r2 & b2 & o2 & i2 & E2 & [R2 V2 _ _ _ [[-> W]|[[] _]]]).
  rewrite E2 in H. pose proof (evolves_trans _ _ _ _ _ _ V1 V2) as V. pose proof (ev_frame _ _ _ _ V) as F.
  pose proof (ev_raw _ _ _ _ V) as Hr. cbn in Hr. unfold raw_close_b in H.
  destruct (raw_close (b_raw b2) (b_w b2)) as [r3 w3] eqn:E3.
  assert (r = r3 /\ b_w b' = w3) as [-> Ew3] by (destruct r3 as [[]|]; injection H as <- <-; auto).
  destruct (rep_flat _ _ _ _ _ _ R2 W) as [Hc _].
  assert (I2 : w_inodes (b_w b2) (o_uid o) = Some i2).
  { rewrite <- (so_uid _ _ (ev_o _ _ _ _ V)). apply (lv_ino _ _ _ _ (rp_live _ _ _ _ _ _ R2)). }
  exists c, p, (b_w b2). rewrite bacc_acc in X. split; [exact X|]. rewrite Ew3.
  split; [exists i2; auto|]. split; [apply (fr_kern _ _ _ _ F)|]. split; [apply (fr_reg _ _ _ _ F)|].
  split; [rewrite <- Hr; exact E3|]. exists i2. split; auto.
  pose proof (raw_close_kept _ _ _ _ E3) as K. now rewrite (kp_inodes _ _ K).
Qed.

Example C34_example :
  let '(f, w) := demo_open "f" true true false (demo [1;2;3] [] [] []) in
  let '(_, b1) := b_lock_file BRandom PNone PNone PNone 0 SNone (fresh f 8 w) in
  let '(_, b2) := run_bops BRandom [BoWrite [9]] b1 in
  let '(r, b3) := b_unlock_file BRandom PNone (PInt 0) 0 b2 in
  let '(r', b4) := b_close BRandom b2 in
  content (b_w b2) (1, 10) = [1;2;3] /\ r = Ok tt /\ content (b_w b3) (1, 10) = [9;2;3]
  /\ r' = Ok tt /\ content (b_w b4) (1, 10) = [9;2;3] /\ w_kern (b_w b4) = [] /\ w_kern (b_w b2) <> [].
Proof. vm_compute. repeat split; auto. discriminate. Qed.

(** Leaving the with-block releases the lock without flushing. *)
Definition with_block_flushes : Prop := forall k f size w o i d b',
  setting k f size w o i ->
  b_with_lock k PNone PNone PNone 0 SNone (b_write k d) (fresh f size w) = (Ok (len d), b') ->
  exists c, stored_at (n_data i) (o_pos o) d c /\ holds_file (b_w b') (o_uid o) c.
Theorem C34_with_block_refuted : ~ with_block_flushes.
Proof.
  intros H. destruct demo_setting as (f & w & o & i & Eo & S & D & P).
  destruct (b_with_lock BRandom PNone PNone PNone 0 SNone (b_write BRandom [9]) (fresh f 8 w)) as [r b'] eqn:E.
  assert (r = Ok 1 /\ content (b_w b') (o_uid o) = [1;2;3;4;5;6] /\ w_kern (b_w b') = []) as (-> & C & _).
  { pose proof (lv_fd _ _ _ _ (se_live _ _ _ _ _ _ S)) as F.
    vm_compute in Eo. injection Eo as <- <-. vm_compute in F. injection F as <-.
    vm_compute in E. injection E as <- <-. vm_compute. auto. }
  destruct (H BRandom f 8 w o i [9] b' S E) as (c & (_ & _ & St) & i' & Hi & Hd).
  unfold content in C. rewrite Hi, Hd in C. subst c.
  specialize (St 0 ltac:(rewrite ?C; unfold len; cbn; lia)). rewrite P in St. vm_compute in St. discriminate St.
Qed.

(** close() whose flush fails releases the locks all the same: the bytes are lost. *)
Definition close_flushes_always : Prop := forall f size d w o i b r b',
  live f w o i -> o_app o = false -> 0 < size -> f_writable f = true ->
  b_write BWriter d (fresh f size w) = (Ok (len d), b) -> b_close BWriter b = (r, b') ->
  w_kern (b_w b') <> w_kern w ->
  exists c, stored_at (n_data i) (o_pos o) d c /\ holds_file (b_w b') (o_uid o) c.
Theorem C34_close_failing_flush_refuted : ~ close_flushes_always.
Proof.
  intros H.
  destruct (demo_open "f" true true false (demo [1;2;3] [IoFull; IoFull; IoErr ENOSPC] [] [])) as [f w0] eqn:Eo.
  destruct (raw_lock_file f PNone PNone PNone 0 SNone w0) as [r0 w] eqn:El.
  destruct (b_write BWriter [9] (fresh f 8 w)) as [r1 b] eqn:Ew.
  destruct (b_close BWriter b) as [r b'] eqn:Ec.
  assert (exists o i, live f w o i /\ o_app o = false /\ f_writable f = true /\ r1 = Ok 1 /\ w_kern (b_w b') <> w_kern w
           /\ content (b_w b') (o_uid o) = [1;2;3] /\ o_pos o = 0) as (o & i & L & A & Wf & -> & K & C & P).
  { vm_compute in Eo. injection Eo as <- <-. vm_compute in El. injection El as <- <-.
    vm_compute in Ew. injection Ew as <- <-. vm_compute in Ec. injection Ec as <- <-.
    eexists _, _. split; [constructor; try reflexivity; cbn; lia|]. vm_compute.
    repeat split; auto; discriminate. }
  destruct (H f 8 [9] w o i b r b' L A ltac:(lia) Wf Ew Ec K) as (c & (_ & _ & St) & i' & Hi & Hd).
  unfold content in C. rewrite Hi, Hd in C. subst c.
  specialize (St 0 ltac:(rewrite ?C; unfold len; cbn; lia)). rewrite P in St. vm_compute in St. discriminate St.
Qed.

(** * C35: size() counts buffered data *)
Theorem C35_size_counts_buffered : forall f size ops w o i outs b n b',
  live f w o i -> o_app o = false -> 0 < size -> f_writable f = true ->
  run_bops BWriter ops (fresh f size w) = (outs, b) ->
  b_fsize BWriter b = (Ok n, b') ->
  exists c p, wruns (n_data i, o_pos o) ops outs (c, p) /\ n = len c /\ holds_file (b_w b') (o_uid o) c.
Proof.
  intros f size ops w o i outs b n b' L A S Wf E H.
  assert (R : rep BWriter (fresh f size w) o i (n_data i) (o_pos o)) by (apply fresh_rep; auto; discriminate).
  destruct (wruns_ok ops _ _ _ _ _ R A outs b E) as (o1 & i1 & c & p & R1 & V1 & X).
  destruct (b_fsize_ok True BWriter b o1 i1 c p R1 ltac:(left; auto)) as (r & b2 & o2 & i2 & E2 & R2 & V2 & _ & C2).
  rewrite H in E2. injection E2 as <- <-. destruct C2 as [[[= ->] Hc]|(_ & e & Y & _)]; [|discriminate].
  exists c, p. split; [exact X|]. split; [reflexivity|]. exists i2. split; [|exact Hc].
  rewrite <- (so_uid _ _ (ev_o _ _ _ _ V1)), <- (so_uid _ _ (ev_o _ _ _ _ V2)). apply (lv_ino _ _ _ _ (rp_live _ _ _ _ _ _ R2)).
Qed.
Theorem C35_size_counts_buffered_any_kind : forall k f size ops w o i outs b,
  setting k f size w o i ->
  run_bops k ops (fresh f size w) = (outs, b) -> (k = BRandom -> disciplined true (combine ops outs)) ->
  exists c p b', baruns (acc_kind k) (n_data i, o_pos o) ops outs (c, p)
    /\ b_fsize k b = (Ok (len c), b') /\ holds_file (b_w b') (o_uid o) c.
Proof.
  intros k f size ops w o i outs b S E D.
  destruct (setting_rep _ _ _ _ _ _ S) as (R & T & P).
  destruct (bruns_ok k ops _ _ _ _ _ true R (se_app _ _ _ _ _ _ S) T P ltac:(intros _ _; reflexivity) outs b E D)
    as (o1 & i1 & c & p & R1 & V1 & X).
  destruct (b_fsize_ok False k b o1 i1 c p R1 (tameb_evolves _ _ _ _ _ V1 T)) as (r & b2 & o2 & i2 & E2 & R2 & V2 & _ & [[-> Hc]|([] & _)]).
  exists c, p, b2. rewrite bacc_acc in X. split; [exact X|]. split; [exact E2|]. exists i2. split; [|exact Hc].
  rewrite <- (so_uid _ _ (ev_o _ _ _ _ V1)), <- (so_uid _ _ (ev_o _ _ _ _ V2)). apply (lv_ino _ _ _ _ (rp_live _ _ _ _ _ _ R2)).
Qed.
Example C35_example :
  let b := demo_buf BWriter 8 [1;2;3] [] in
  let '(outs, b1) := run_bops BWriter [BoSeek 0 2; BoWrite [4;5]] b in
  content (b_w b1) (1, 10) = [1;2;3] /\ fst (b_fsize BWriter b1) = Ok 5.
Proof. vm_compute. auto. Qed.

Print Assumptions C31_buffered_refines_byte_array_partial.
Print Assumptions C31_one_way_streams_refine.
Print Assumptions C31_truncate_refuted.
Print Assumptions C31_failed_seek_refuted.
Print Assumptions C32_failing_flush.
Print Assumptions C33_buffers_dropped.
Print Assumptions C33_fresh_after_lock.
Print Assumptions C34_unlock_flushes_first.
Print Assumptions C34_unlock_flushes_first_random.
Print Assumptions C34_close_flushes_first_partial.
Print Assumptions C34_with_block_refuted.
Print Assumptions C34_close_failing_flush_refuted.
Print Assumptions C35_size_counts_buffered.
Print Assumptions C35_size_counts_buffered_any_kind.
