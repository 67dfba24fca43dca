(** C33, C34, C35, C38, C52 and C53 for streams in append mode: what C_Buffered, C_Sync and
    C_BufLine say of the byte array of C31 (or of the content of C32), said of the append-only
    array of C68. *)
From Coq Require Import ZArith Ascii String List Bool Lia.
From Verif Require Import M_Base M_Modes M_Registry M_Kernel M_World M_Raw M_Buffered M_BufLines S_Bytes S_Raw S_Locks S_LockFile
  S_Open S_Buffered S_Append S_BufLine S_Sync S_Demo P_Bytes P_Raw P_Close P_Frame P_LockFile P_Open P_Buffered P_BufOps P_BufRun P_BufLine
  C_Buffered C_BufLine C_Append C_Sync.
Import ListNotations.
Open Scope Z_scope.

(** * C33: the file as others left it is what is read and appended to from then on; tell() is right
    again, whatever it was wrong by before. *)
Theorem C33_fresh_after_lock_appending : forall k f size ops0 w o i outs0 b timeout length offset whence shared cm b',
  appending k f size w o i ->
  run_bops k ops0 (fresh f size w) = (outs0, b) ->
  (k = BRandom -> disciplined true (combine ops0 outs0)) ->
  b_lock_file k timeout length offset whence shared b = (Ok cm, b') ->
  exists c p lag w1 i1 i2,
    apruns (acc_kind k) (n_data i, o_pos o, 0) ops0 outs0 (c, p, lag)
    (* everything written before is in the file when the lock is asked for *)
    /\ raw_lock_file f timeout length offset whence shared w1 = (Ok cm, b_w b')
    /\ w_kern w1 = w_kern w /\ w_reg w1 = w_reg w
    /\ w_inodes w1 (o_uid o) = Some i1 /\ n_data i1 = c
    /\ w_inodes (b_w b') (o_uid o) = Some i2 /\ others_only (w_env w1) i1 i2
    /\ forall ops outs b'', run_bops k ops b' = (outs, b'') ->
         (k = BRandom -> disciplined true (combine ops outs)) ->
         exists c' p' lag', apruns (acc_kind k) (n_data i2, p, 0) ops outs (c', p', lag').
Proof.
  intros k f size ops0 w o i outs0 b timeout length offset whence shared cm b' S E D H.
  destruct (appending_rep _ _ _ _ _ _ S) as (R & T & P).
  destruct (apruns_ok k ops0 _ _ _ _ _ true R (ap_app _ _ _ _ _ _ S) T P ltac:(intros _ _; reflexivity) outs0 b E D)
    as (o1 & i1 & c & p & R1 & V1 & X).
  pose proof (tameb_evolves _ _ _ _ _ V1 T) as T1. pose proof (no_epipe_evolves _ _ _ _ V1 P) as P1.
  unfold b_lock_file, bind in H.
  destruct (reset_ok False k b o1 i1 c p R1 T1) as (r & b2 & o2 & i2 & E2 & V2 & R2 & [(-> & Er & Ew & Hc & Hp)|([] & _)]).
  rewrite E2 in H. unfold on_raw in H.
  destruct (raw_lock_file (b_raw b2) timeout length offset whence shared (b_w b2)) as [r3 w3] eqn:E3.
  injection H as -> <-.
  pose proof (evolves_trans _ _ _ _ _ _ V1 V2) as V. pose proof (ev_frame _ _ _ _ V) as F.
  pose proof (ev_raw _ _ _ _ V) as Hr. cbn in Hr. pose proof (so_uid _ _ (ev_o _ _ _ _ V)) as Hu.
  pose proof (rp_live _ _ _ _ _ _ R2) as L2.
  pose proof (lock_file_touched _ _ _ _ _ _ _ _ _ E3 (o_uid o)) as Tc.
  pose proof (lock_file_env _ _ _ _ _ _ _ _ _ E3) as (_ & _ & _ & Hio & Hfd).
  rewrite <- Hu in Tc. rewrite (lv_ino _ _ _ _ L2) in Tc. unfold touched in Tc.
  destruct (w_inodes w3 (o_uid o2)) as [i3|] eqn:Ei3; [|contradiction].
  exists c, p, (lagof b o1 i1), (b_w b2), i2, i3. rewrite bacc_acc, (lag_clean (fresh f size w) o i eq_refl) in X. rewrite <- Hu, <- Hr.
  split; [exact X|]. split; [exact E3|]. split; [apply (fr_kern _ _ _ _ F)|]. split; [apply (fr_reg _ _ _ _ F)|].
  split; [apply (lv_ino _ _ _ _ L2)|]. split; [exact Hc|]. split; [exact Ei3|]. split; [exact Tc|].
  intros ops outs b'' E4 D4.
  assert (L3 : live (b_raw b2) w3 o2 i3).
  { constructor; [now rewrite Hfd, (lv_fd _ _ _ _ L2)|exact Ei3| |apply (lv_pos _ _ _ _ L2)|apply (lv_open _ _ _ _ L2)|apply (lv_seek _ _ _ _ L2)].
    destruct Tc as [-> |(ev & d & _ & _ & ->)]; [|cbn [n_kind]]; apply (lv_kind _ _ _ _ L2). }
  assert (R3 : rep k (set_world b2 w3) o2 i3 (n_data i3) p).
  { destruct R2. constructor; cbn [set_world b_raw b_w b_size b_rbuf b_rpos b_wbuf]; auto.
    - now rewrite Ew, write_at_nil.
    - rewrite (epos_clean _ _ _ Ew) in rp_p. now rewrite epos_clean by exact Ew.
    - change (unread (set_world b2 w3)) with (unread b2). rewrite (unread_nil _ Er). apply slice_nil. }
  assert (T3 : tameb False (set_world b2 w3) o2).
  { pose proof (tameb_evolves _ _ _ _ _ V T) as [[]|(A1 & A2)]. right. split; [|exact A2].
    intros e Hin. apply (A1 e), Hio, Hin. }
  assert (A3 : o_app o2 = true) by (rewrite (so_app _ _ (ev_o _ _ _ _ V)); apply (ap_app _ _ _ _ _ _ S)).
  assert (P3 : no_epipe w3) by (intros Hin; apply (no_epipe_evolves _ _ _ _ V P), Hio, Hin).
  destruct (apruns_ok k ops _ _ _ _ _ true R3 A3 T3 P3 ltac:(intros _ _; exact Er) outs b'' E4 D4)
    as (o4 & i4 & c4 & p4 & _ & _ & Y).
  rewrite bacc_acc, (lag_clean (set_world b2 w3) o2 i3 Ew) in Y. eauto.
Qed.

(** * C34: all bytes taken are in the file before the lock is released, or it is not released.
    System calls may fail. *)
Theorem C34_unlock_flushes_first_appending : forall f size ops w o i outs b length offset whence r b',
  live f w o i -> o_app o = true -> 0 < size -> f_writable f = true ->
  run_bops BWriter ops (fresh f size w) = (outs, b) ->
  b_unlock_file BWriter length offset whence b = (r, b') ->
  exists c, awruns (n_data i) ops outs c
    /\ ( (exists w1, holds_file w1 (o_uid o) c /\ w_kern w1 = w_kern w /\ w_reg w1 = w_reg w
            /\ raw_unlock_file f length offset whence w1 = (r, b_w b'))
       \/ (w_kern (b_w b') = w_kern w /\ w_reg (b_w b') = w_reg w /\ exists e, r = Err e /\ os_or_block e) ).
Proof.
  intros f size ops w o i outs b length offset whence r b' L A S Wf E H.
  assert (R : rep BWriter (fresh f size w) o i (n_data i) (o_pos o)) by (apply fresh_rep; auto; discriminate).
  destruct (awruns_ok ops _ _ _ _ _ R A outs b E) as (o1 & i1 & c & p & R1 & V1 & X).
  exists c. split; [exact X|]. unfold b_unlock_file, bind in H.
  destruct (reset_ok True BWriter b o1 i1 c p R1 ltac:(left; auto)) as (r2 & b2 & o2 & i2 & E2 & V2 & R2 & C2).
  rewrite E2 in H. pose proof (evolves_trans _ _ _ _ _ _ V1 V2) as V. pose proof (ev_frame _ _ _ _ V) as F.
  pose proof (ev_raw _ _ _ _ V) as Hr. cbn in Hr.
  destruct C2 as [(-> & Er & Ew & Hc & Hp)|(_ & e & -> & He)].
  - left. exists (b_w b2). unfold on_raw in H.
    destruct (raw_unlock_file (b_raw b2) length offset whence (b_w b2)) as [r3 w3] eqn:E3. injection H as -> <-.
    split; [|split; [apply (fr_kern _ _ _ _ F)|split; [apply (fr_reg _ _ _ _ F)|rewrite <- Hr; exact E3]]].
    exists i2. split; [|exact Hc]. rewrite <- (so_uid _ _ (ev_o _ _ _ _ V)). apply (lv_ino _ _ _ _ (rp_live _ _ _ _ _ _ R2)).
  - injection H as <- <-. right. split; [apply (fr_kern _ _ _ _ F)|]. split; [apply (fr_reg _ _ _ _ F)|eauto].
Qed.

(** Streams that also read, system calls working. *)
Theorem C34_unlock_flushes_first_appending_any_kind : forall k f size ops w o i outs b length offset whence r b',
  appending k f size w o i ->
  run_bops k ops (fresh f size w) = (outs, b) -> (k = BRandom -> disciplined true (combine ops outs)) ->
  b_unlock_file k length offset whence b = (r, b') ->
  exists c p lag w1, apruns (acc_kind k) (n_data i, o_pos o, 0) ops outs (c, p, lag)
    /\ holds_file w1 (o_uid o) c /\ w_kern w1 = w_kern w /\ w_reg w1 = w_reg w
    /\ raw_unlock_file f length offset whence w1 = (r, b_w b').
Proof.
  intros k f size ops w o i outs b length offset whence r b' S E D H.
  destruct (appending_rep _ _ _ _ _ _ S) as (R & T & P).
  destruct (apruns_ok k ops _ _ _ _ _ true R (ap_app _ _ _ _ _ _ S) T P ltac:(intros _ _; reflexivity) outs b E D)
    as (o1 & i1 & c & p & R1 & V1 & X). unfold b_unlock_file, bind in H.
  destruct (reset_ok False k b o1 i1 c p R1 (tameb_evolves _ _ _ _ _ V1 T)) as (r2 & b2 & o2 & i2 & E2 & V2 & R2 & [(-> & Er & Ew & Hc & Hp)|([] & _)]).
  rewrite E2 in H. pose proof (evolves_trans _ _ _ _ _ _ V1 V2) as V. pose proof (ev_frame _ _ _ _ V) as F.
  pose proof (ev_raw _ _ _ _ V) as Hr. cbn in Hr. unfold on_raw in H.
  destruct (raw_unlock_file (b_raw b2) length offset whence (b_w b2)) as [r3 w3] eqn:E3. injection H as -> <-.
  exists c, p, (lagof b o1 i1), (b_w b2). rewrite bacc_acc, (lag_clean (fresh f size w) o i eq_refl) in X. split; [exact X|].
  split; [|split; [apply (fr_kern _ _ _ _ F)|split; [apply (fr_reg _ _ _ _ F)|rewrite <- Hr; exact E3]]].
  exists i2. split; [|exact Hc]. rewrite <- (so_uid _ _ (ev_o _ _ _ _ V)). apply (lv_ino _ _ _ _ (rp_live _ _ _ _ _ _ R2)).
Qed.

(** close(), system calls working. *)
Theorem C34_close_flushes_first_appending_partial : forall k f size ops w o i outs b r b',
  appending k f size w o i ->
  run_bops k ops (fresh f size w) = (outs, b) -> (k = BRandom -> disciplined true (combine ops outs)) ->
  b_close k b = (r, b') ->
  exists c p lag w1, apruns (acc_kind k) (n_data i, o_pos o, 0) ops outs (c, p, lag)
    /\ holds_file w1 (o_uid o) c /\ w_kern w1 = w_kern w /\ w_reg w1 = w_reg w
    /\ raw_close f w1 = (r, b_w b') /\ holds_file (b_w b') (o_uid o) c.
Proof.
  intros k f size ops w o i outs b r b' S E D H.
  destruct (appending_rep _ _ _ _ _ _ S) as (R & T & P).
  destruct (apruns_ok k ops _ _ _ _ _ true R (ap_app _ _ _ _ _ _ S) T P ltac:(intros _ _; reflexivity) outs b E D)
    as (o1 & i1 & c & p & R1 & V1 & X). unfold b_close in H.
  rewrite (lv_open _ _ _ _ (rp_live _ _ _ _ _ _ R1)) in H. unfold finally in H.
  destruct (b_flush_ok False k b o1 i1 c p R1 (tameb_evolves _ _ _ _ _ V1 T)) as (r2 & b2 & o2 & i2 & E2 & [R2 V2 _ _ _ [[-> W]|[[] _]]]).
  rewrite E2 in H. pose proof (evolves_trans _ _ _ _ _ _ V1 V2) as V. pose proof (ev_frame _ _ _ _ V) as F.
  pose proof (ev_raw _ _ _ _ V) as Hr. cbn in Hr. unfold raw_close_b in H.
  destruct (raw_close (b_raw b2) (b_w b2)) as [r3 w3] eqn:E3.
  assert (r = r3 /\ b_w b' = w3) as [-> Ew3] by (destruct r3 as [[]|]; injection H as <- <-; auto).
  destruct (rep_flat _ _ _ _ _ _ R2 W) as [Hc _].
  assert (I2 : w_inodes (b_w b2) (o_uid o) = Some i2).
  { rewrite <- (so_uid _ _ (ev_o _ _ _ _ V)). apply (lv_ino _ _ _ _ (rp_live _ _ _ _ _ _ R2)). }
  exists c, p, (lagof b o1 i1), (b_w b2). rewrite bacc_acc, (lag_clean (fresh f size w) o i eq_refl) in X. split; [exact X|]. rewrite Ew3.
  split; [exists i2; auto|]. split; [apply (fr_kern _ _ _ _ F)|]. split; [apply (fr_reg _ _ _ _ F)|].
  split; [rewrite <- Hr; exact E3|]. exists i2. split; auto.
  pose proof (raw_close_kept _ _ _ _ E3) as K. now rewrite (kp_inodes _ _ K).
Qed.

(** * C35: size() counts what is pending. *)
Theorem C35_size_counts_buffered_appending : forall f size ops w o i outs b n b',
  live f w o i -> o_app o = true -> 0 < size -> f_writable f = true ->
  run_bops BWriter ops (fresh f size w) = (outs, b) ->
  b_fsize BWriter b = (Ok n, b') ->
  exists c, awruns (n_data i) ops outs c /\ n = len c /\ holds_file (b_w b') (o_uid o) c.
Proof.
  intros f size ops w o i outs b n b' L A S Wf E H.
  assert (R : rep BWriter (fresh f size w) o i (n_data i) (o_pos o)) by (apply fresh_rep; auto; discriminate).
  destruct (awruns_ok ops _ _ _ _ _ R A outs b E) as (o1 & i1 & c & p & R1 & V1 & X).
  destruct (b_fsize_ok True BWriter b o1 i1 c p R1 ltac:(left; auto)) as (r & b2 & o2 & i2 & E2 & R2 & V2 & _ & C2).
  rewrite H in E2. injection E2 as <- <-. destruct C2 as [[[= ->] Hc]|(_ & e & Y & _)]; [|discriminate].
  exists c. split; [exact X|]. split; [reflexivity|]. exists i2. split; [|exact Hc].
  rewrite <- (so_uid _ _ (ev_o _ _ _ _ V1)), <- (so_uid _ _ (ev_o _ _ _ _ V2)). apply (lv_ino _ _ _ _ (rp_live _ _ _ _ _ _ R2)).
Qed.

Theorem C35_size_counts_buffered_appending_any_kind : forall k f size ops w o i outs b,
  appending k f size w o i ->
  run_bops k ops (fresh f size w) = (outs, b) -> (k = BRandom -> disciplined true (combine ops outs)) ->
  exists c p lag b', apruns (acc_kind k) (n_data i, o_pos o, 0) ops outs (c, p, lag)
    /\ b_fsize k b = (Ok (len c), b') /\ holds_file (b_w b') (o_uid o) c.
Proof.
  intros k f size ops w o i outs b S E D.
  destruct (appending_rep _ _ _ _ _ _ S) as (R & T & P).
  destruct (apruns_ok k ops _ _ _ _ _ true R (ap_app _ _ _ _ _ _ S) T P ltac:(intros _ _; reflexivity) outs b E D)
    as (o1 & i1 & c & p & R1 & V1 & X).
  destruct (b_fsize_ok False k b o1 i1 c p R1 (tameb_evolves _ _ _ _ _ V1 T)) as (r & b2 & o2 & i2 & E2 & R2 & V2 & _ & [[-> Hc]|([] & _)]).
  exists c, p, (lagof b o1 i1), b2. rewrite bacc_acc, (lag_clean (fresh f size w) o i eq_refl) in X. split; [exact X|]. split; [exact E2|]. exists i2. split; [|exact Hc].
  rewrite <- (so_uid _ _ (ev_o _ _ _ _ V1)), <- (so_uid _ _ (ev_o _ _ _ _ V2)). apply (lv_ino _ _ _ _ (rp_live _ _ _ _ _ _ R2)).
Qed.

(** * C38: after sync() all bytes taken survive a crash. *)
Theorem C38_buffered_sync_durable_appending : forall f size ops w o i outs b has_fdatasync metadata full_flush b',
  live f w o i -> o_app o = true -> 0 < size -> f_writable f = true ->
  run_bops BWriter ops (fresh f size w) = (outs, b) ->
  b_sync has_fdatasync BWriter metadata full_flush b = (Ok tt, b') ->
  exists c, awruns (n_data i) ops outs c
    /\ holds_file (b_w b') (o_uid o) c /\ durable (b_w b') (o_uid o) c
    /\ flushed_to_disk (fd_of f) (o_uid o) c (b_w b').
Proof.
  intros f size ops w o i outs b h m ff b' L A S Wf E H.
  assert (R : rep BWriter (fresh f size w) o i (n_data i) (o_pos o)) by (apply fresh_rep; auto; discriminate).
  destruct (awruns_ok ops _ _ _ _ _ R A outs b E) as (o1 & i1 & c & p & R1 & V1 & X).
  unfold b_sync, bind in H.
  destruct (b_flush_ok True BWriter b o1 i1 c p R1 ltac:(left; auto)) as (r2 & b2 & o2 & i2 & E2 & [R2 V2 _ _ _ C2]).
  rewrite E2 in H. destruct C2 as [[-> W]|(_ & _ & e & -> & _)]; [|discriminate].
  pose proof (evolves_trans _ _ _ _ _ _ V1 V2) as V. pose proof (ev_raw _ _ _ _ V) as Hr. cbn in Hr.
  pose proof (so_uid _ _ (ev_o _ _ _ _ V)) as Hu. pose proof (rp_live _ _ _ _ _ _ R2) as L2.
  destruct (rep_flat _ _ _ _ _ _ R2 W) as [Hc _]. unfold on_raw in H.
  destruct (raw_sync h (b_raw b2) m ff (b_w b2)) as [r3 w3] eqn:E3. injection H as -> <-. cbn [set_world b_w].
  exists c. split; [exact X|].
  destruct (C38_raw_sync_durable _ _ _ _ _ _ E3) as (o3 & i3 & F1 & F2 & F3 & F4).
  destruct (C38_sync_needs_flush _ _ _ _ _ _ E3) as (o4 & i4 & G1 & G2 & G3).
  rewrite (lv_fd _ _ _ _ L2) in F1, G1. injection F1 as <-. injection G1 as <-.
  rewrite (lv_ino _ _ _ _ L2) in F2, G2. injection F2 as <-. injection G2 as <-.
  rewrite Hu, Hc in *. rewrite Hr in G3. auto.
Qed.

Theorem C38_buffered_sync_durable_appending_any_kind : forall k f size ops w o i outs b has_fdatasync metadata full_flush b',
  appending k f size w o i ->
  run_bops k ops (fresh f size w) = (outs, b) -> (k = BRandom -> disciplined true (combine ops outs)) ->
  b_sync has_fdatasync k metadata full_flush b = (Ok tt, b') ->
  exists c p lag, apruns (acc_kind k) (n_data i, o_pos o, 0) ops outs (c, p, lag)
    /\ holds_file (b_w b') (o_uid o) c /\ durable (b_w b') (o_uid o) c
    /\ flushed_to_disk (fd_of f) (o_uid o) c (b_w b').
Proof.
  intros k f size ops w o i outs b h m ff b' S E D H.
  destruct (appending_rep _ _ _ _ _ _ S) as (R & T & P).
  destruct (apruns_ok k ops _ _ _ _ _ true R (ap_app _ _ _ _ _ _ S) T P ltac:(intros _ _; reflexivity) outs b E D)
    as (o1 & i1 & c & p & R1 & V1 & X). unfold b_sync, bind in H.
  destruct (b_flush_ok False k b o1 i1 c p R1 (tameb_evolves _ _ _ _ _ V1 T)) as (r2 & b2 & o2 & i2 & E2 & [R2 V2 _ _ _ [[-> W]|[[] _]]]).
  rewrite E2 in H.
  pose proof (evolves_trans _ _ _ _ _ _ V1 V2) as V. pose proof (ev_raw _ _ _ _ V) as Hr. cbn in Hr.
  pose proof (so_uid _ _ (ev_o _ _ _ _ V)) as Hu. pose proof (rp_live _ _ _ _ _ _ R2) as L2.
  destruct (rep_flat _ _ _ _ _ _ R2 W) as [Hc _]. unfold on_raw in H.
  destruct (raw_sync h (b_raw b2) m ff (b_w b2)) as [r3 w3] eqn:E3. injection H as -> <-. cbn [set_world b_w].
  exists c, p, (lagof b o1 i1). rewrite bacc_acc, (lag_clean (fresh f size w) o i eq_refl) in X. split; [exact X|].
  destruct (C38_raw_sync_durable _ _ _ _ _ _ E3) as (o3 & i3 & F1 & F2 & F3 & F4).
  destruct (C38_sync_needs_flush _ _ _ _ _ _ E3) as (o4 & i4 & G1 & G2 & G3).
  rewrite (lv_fd _ _ _ _ L2) in F1, G1. injection F1 as <-. injection G1 as <-.
  rewrite (lv_ino _ _ _ _ L2) in F2, G2. injection F2 as <-. injection G2 as <-.
  rewrite Hu, Hc in *. rewrite Hr in G3. auto.
Qed.

(** Two bytes are pending when the lock is asked for: they are appended first.  While it is waited
    for, another process appends; after that reading and appending continue behind its bytes, and
    unlock_file() and close() leave nothing pending. *)
Example C33_C34_C35_C38_appending_example :
  let '(f, w) := demo_open "f" true true true
      (demo [1;2;3] [] [mkEv 1 (Some []) None (Some [1;2;3;8;9;5])] [mkSeg 200 (1, 10) false 0 None]) in
  let '(_, b1) := run_bops BRandom [BoWrite [8;9]] (fresh f 8 w) in
  let '(r2, b2) := b_lock_file BRandom (PInt 9) PNone PNone 0 SNone b1 in
  let '(o3, b3) := run_bops BRandom [BoTell; BoRead None; BoWrite [7]; BoSize; BoWrite [6]] b2 in
  let '(r4, b4) := b_unlock_file BRandom PNone (PInt 0) 0 b3 in
  let '(r5, b5) := b_close BRandom b3 in
  let '(r6, b6) := b_sync true BRandom true true b3 in
  content (b_w b1) (1, 10) = [1;2;3] /\ content (b_w b2) (1, 10) = [1;2;3;8;9;5]
  /\ o3 = [OInt 5; OBytes [5]; OInt 1; OInt 7; OInt 1] /\ content (b_w b3) (1, 10) = [1;2;3;8;9;5;7]
  /\ r4 = Ok tt /\ content (b_w b4) (1, 10) = [1;2;3;8;9;5;7;6]
  /\ r5 = Ok tt /\ content (b_w b5) (1, 10) = [1;2;3;8;9;5;7;6]
  /\ r6 = Ok tt /\ content (b_w b6) (1, 10) = [1;2;3;8;9;5;7;6].
Proof. vm_compute. repeat split. Qed.

(** * C52, C53: lines and readinto() *)

(** From now on the stream [b] behaves as the append-only byte array [c] with its cursor at [p]. *)
Definition appends_as (k : bkind) (u : uid) (b : bstate) (c : list Z) (p : Z) : Prop :=
  exists lag, forall ops outs b', run_bops k ops b = (outs, b') -> (k = BRandom -> disciplined false (combine ops outs)) ->
  exists c' p' lag', apruns (acc_kind k) (c, p, lag) ops outs (c', p', lag')
    /\ exists b'', b_flush k b' = (Ok tt, b'') /\ holds_file (b_w b'') u c'.
Lemma rep_appends k b o i c p : rep k b o i c p -> o_app o = true -> tameb False b o -> no_epipe (b_w b) -> appends_as k (o_uid o) b c p.
Proof.
  intros R A T P. exists (lagof b o i). intros ops outs b' E D.
  destruct (apruns_ok k ops _ _ _ _ _ false R A T P ltac:(intros _ X; discriminate) outs b' E D) as (o' & i' & c' & p' & R' & V' & X).
  exists c', p', (lagof b' o' i'). rewrite bacc_acc in X. split; [exact X|].
  destruct (b_flush_ok False k b' o' i' c' p' R' (tameb_evolves _ _ _ _ _ V' T)) as (r & b'' & o'' & i'' & E'' & [R'' V'' _ _ _ [[-> W]|[[] _]]]).
  exists b''. split; [exact E''|]. exists i''. split; [|apply (rep_flat _ _ _ _ _ _ R'' W)].
  rewrite <- (lv_ino _ _ _ _ (rp_live _ _ _ _ _ _ R'')). f_equal.
  now rewrite (so_uid _ _ (ev_o _ _ _ _ V'')), (so_uid _ _ (ev_o _ _ _ _ V')).
Qed.
Definition appended (k : bkind) (w : world) (o : ofd) (i : inode) (f : rawio) (size : Z) (ops : list bop) (outs : list rout) (b : bstate) : Prop :=
  appending k f size w o i /\ run_bops k ops (fresh f size w) = (outs, b) /\ (k = BRandom -> disciplined true (combine ops outs)).
Lemma appended_rep k w o i f size ops outs b : appended k w o i f size ops outs b ->
  exists o' i' c p, rep k b o' i' c p /\ o_app o' = true /\ tameb False b o' /\ no_epipe (b_w b) /\ o_uid o' = o_uid o
    /\ incl (w_io (b_w b)) (w_io w)
    /\ apruns (acc_kind k) (n_data i, o_pos o, 0) ops outs (c, p, lagof b o' i').
Proof.
  intros (S & E & D). destruct (appending_rep _ _ _ _ _ _ S) as (R & T & P).
  destruct (apruns_ok k ops _ _ _ _ _ true R (ap_app _ _ _ _ _ _ S) T P ltac:(intros _ _; reflexivity) outs b E D) as (o' & i' & c & p & R' & V' & X).
  exists o', i', c, p. split; [exact R'|]. split; [rewrite (so_app _ _ (ev_o _ _ _ _ V')); apply (ap_app _ _ _ _ _ _ S)|]. split; [apply (tameb_evolves _ _ _ _ _ V' T)|]. split; [apply (no_epipe_evolves _ _ _ _ V' P)|].
  split; [apply (so_uid _ _ (ev_o _ _ _ _ V'))|]. split; [apply (fr_io _ _ _ _ (ev_frame _ _ _ _ V'))|].
  rewrite (lag_clean (fresh f size w) o i eq_refl) in X. now rewrite <- bacc_acc.
Qed.
Lemma appends_after k b o i b1 o1 i1 c p c1 p1 : rep k b o i c p -> o_app o = true -> tameb False b o -> no_epipe (b_w b) -> evolves b b1 o o1 -> rep k b1 o1 i1 c1 p1 ->
  appends_as k (o_uid o) b1 c1 p1.
Proof.
  intros R A T P V R1. rewrite <- (so_uid _ _ (ev_o _ _ _ _ V)). eapply rep_appends; [exact R1|rewrite (so_app _ _ (ev_o _ _ _ _ V)); exact A|apply (tameb_evolves _ _ _ _ _ V T)|apply (no_epipe_evolves _ _ _ _ V P)].
Qed.

Theorem C52_readline_appending : forall k w o i f size ops outs b, k <> BWriter -> appended k w o i f size ops outs b ->
  exists c p lag, apruns (acc_kind k) (n_data i, o_pos o, 0) ops outs (c, p, lag) /\ (exists l, line_at c p l) /\
    forall limit l, line_at c p l ->
    exists d b', b_readline k limit b = (Ok d, b') /\ line_got limit l d /\ appends_as k (o_uid o) b' c (p + len d).
Proof.
  intros k w o i f size ops outs b K H. destruct (appended_rep _ _ _ _ _ _ _ _ _ H) as (o' & i' & c & p & R & Ap & T & P & U & _ & X).
  exists c, p, (lagof b o' i'). split; [exact X|]. split; [apply line_exists, (rp_nn _ _ _ _ _ _ R)|]. intros limit l Hl.
  destruct (readline_ok k b o' i' c p limit l R T P (not_writer _ K) Hl) as (d & b' & o2 & i2 & E & V & R2 & _ & G).
  exists d, b'. split; [exact E|]. split; [exact G|]. rewrite <- U. eapply appends_after; eauto.
Qed.

Corollary C52_readline_whole_appending : forall k w o i f size ops outs b, k <> BWriter -> appended k w o i f size ops outs b ->
  exists c p lag l b', apruns (acc_kind k) (n_data i, o_pos o, 0) ops outs (c, p, lag) /\ line_at c p l
    /\ b_readline k (-1) b = (Ok l, b') /\ appends_as k (o_uid o) b' c (p + len l).
Proof.
  intros k w o i f size ops outs b K H. destruct (C52_readline_appending _ _ _ _ _ _ _ _ _ K H) as (c & p & lag & X & (l & Hl) & G).
  destruct (G (-1) l Hl) as (d & b' & E & (r & El & Er & _) & St). specialize (Er ltac:(lia)). subst r. rewrite app_nil_r in El. subst d. eauto 10.
Qed.

Theorem C52_readlines_appending : forall k w o i f size ops outs b, k <> BWriter -> appended k w o i f size ops outs b ->
  exists c p lag, apruns (acc_kind k) (n_data i, o_pos o, 0) ops outs (c, p, lag) /\
    forall hint, exists ls b', b_readlines k hint b = (Ok ls, b') /\ lines_got hint c p ls /\ appends_as k (o_uid o) b' c (p + len (concat ls)).
Proof.
  intros k w o i f size ops outs b K H. destruct (appended_rep _ _ _ _ _ _ _ _ _ H) as (o' & i' & c & p & R & Ap & T & P & U & _ & X).
  exists c, p, (lagof b o' i'). split; [exact X|]. intros hint.
  destruct (readlines_ok k b o' i' c p hint R T P (not_writer _ K)) as (ls & b' & o2 & i2 & E & V & R2 & G).
  exists ls, b'. split; [exact E|]. split; [exact G|]. rewrite <- U. eapply appends_after; eauto.
Qed.

Theorem C53_readinto1_appending : forall k w o i f size ops outs b, k <> BWriter -> appended k w o i f size ops outs b ->
  exists c p lag, apruns (acc_kind k) (n_data i, o_pos o, 0) ops outs (c, p, lag) /\
    forall n, 0 <= n -> exists d b', b_readinto k n true b = (Ok d, b') /\ len d <= n /\ slice_at c p d /\ (d = [] -> n = 0 \/ len c <= p)
      /\ appends_as k (o_uid o) b' c (p + len d).
Proof.
  intros k w o i f size ops outs b K H. destruct (appended_rep _ _ _ _ _ _ _ _ _ H) as (o' & i' & c & p & R & Ap & T & P & U & _ & X).
  exists c, p, (lagof b o' i'). split; [exact X|]. intros n Hn.
  destruct (readinto_ok k b o' i' c p n true R T P (not_writer _ K) Hn) as (r & b' & b1 & o1 & i1 & E & V & R1 & Q & [(d & -> & o2 & V2 & R2 & _ & S2 & A & _ & B)|(_ & B)]).
  - exists d, b'. split; [exact E|]. split; [exact A|]. split; [exact S2|]. split; [exact B|]. rewrite <- U. eapply appends_after; [exact R|exact Ap|exact T|exact P|eapply evolves_trans; eauto|exact R2].
  - exfalso. apply B. left. auto.
Qed.

Theorem C53_readinto_or_error_appending_partial : forall k w o i f size ops outs b, k <> BWriter -> appended k w o i f size ops outs b ->
  exists c p lag, apruns (acc_kind k) (n_data i, o_pos o, 0) ops outs (c, p, lag) /\
    forall n, 0 <= n -> exists r b', b_readinto k n false b = (r, b') /\
      (r = Err EValue \/ exists d, r = Ok d /\ filled n c p d /\ appends_as k (o_uid o) b' c (p + len d)).
Proof.
  intros k w o i f size ops outs b K H. destruct (appended_rep _ _ _ _ _ _ _ _ _ H) as (o' & i' & c & p & R & Ap & T & P & U & _ & X).
  exists c, p, (lagof b o' i'). split; [exact X|]. intros n Hn.
  destruct (readinto_ok k b o' i' c p n false R T P (not_writer _ K) Hn) as (r & b' & b1 & o1 & i1 & E & V & R1 & Q & [(d & -> & o2 & V2 & R2 & _ & S2 & _ & A & _)|(-> & _)]).
  - exists (Ok d), b'. split; [exact E|]. right. exists d. split; [reflexivity|]. split; [split; [auto|exact S2]|].
    rewrite <- U. eapply appends_after; [exact R|exact Ap|exact T|exact P|eapply evolves_trans; eauto|exact R2].
  - exists (Err EValue), b'. auto.
Qed.

Theorem C53_readinto_after_seek_appending_partial : forall k w o i f size ops outs b off wh t b1,
  k <> BWriter -> appended k w o i f size ops outs b -> (forall e, In e (w_io w) -> e = IoFull) ->
  b_seek k off wh b = (Ok t, b1) ->
  exists c p lag, apruns (acc_kind k) (n_data i, o_pos o, 0) ops outs (c, p, lag) /\
    forall n, 0 <= n -> exists d b', b_readinto k n false b1 = (Ok d, b') /\ filled n c t d /\ appends_as k (o_uid o) b' c (t + len d).
Proof.
  intros k w o i f size ops outs b off wh t b1 K H F Es. destruct (appended_rep _ _ _ _ _ _ _ _ _ H) as (o' & i' & c & p & R & Ap & T & P & U & Io & X).
  exists c, p, (lagof b o' i'). split; [exact X|]. intros n Hn.
  destruct (b_seek_ok False k b o' i' c p off wh R T) as (r & b1' & o1 & i1 & E1 & V1 & So). rewrite E1 in Es. injection Es as -> ->.
  destruct So as [(t' & _ & Ht & Et & R1 & Er & _)|[(t' & _ & _ & Y & _)|[(_ & Y & _)|([] & _)]]]; try discriminate. injection Et as <-.
  destruct (readinto_ok k b1 o1 i1 c t n false R1 (tameb_evolves _ _ _ _ _ V1 T) (no_epipe_evolves _ _ _ _ V1 P) (not_writer _ K) Hn)
    as (r & b' & b2 & o2 & i2 & E & V & R2 & Q & [(d & -> & o3 & V3 & R3 & _ & S3 & _ & A & _)|(-> & B)]).
  - exists d, b'. split; [exact E|]. split; [split; [auto|exact S3]|]. rewrite <- U.
    eapply appends_after; [exact R|exact Ap|exact T|exact P|eapply evolves_trans; [exact V1|eapply evolves_trans; eauto]|exact R3].
  - exfalso. apply B. right. split.
    + intros e He. apply F, Io. apply (fr_io _ _ _ _ (ev_frame _ _ _ _ (evolves_trans _ _ _ _ _ _ V1 V))), He.
    + left. split; [reflexivity|]. left. apply unread_nil. congruence.
Qed.

Lemma write_all_appends k : can_write k = true -> forall ds b o i c p, rep k b o i c p -> o_app o = true -> tameb False b o ->
  exists b' o' i' p', write_all k ds b = (Ok tt, b') /\ evolves b b' o o' /\ rep k b' o' i' (c ++ concat ds) p'
    /\ p' = (if Nat.eqb (List.length (concat ds)) 0 then p else len (c ++ concat ds)).
Proof.
  intros K. induction ds as [|d ds IH]; intros b o i c p R A T; cbn [write_all concat].
  - exists b, o, i, p. rewrite app_nil_r. split; [reflexivity|]. split; [auto with frame|]. split; [exact R|reflexivity].
  - destruct (b_write_ok False k b o i c p d R T K) as (r & b1 & o1 & i1 & c1 & p1 & E1 & R1 & V1 & _ & Wn & _).
    rewrite A in Wn. destruct Wn; try contradiction. unfold bind. rewrite E1. rewrite put_end in R1.
    destruct (IH b1 o1 i1 (c ++ d) _ R1 ltac:(rewrite (so_app _ _ (ev_o _ _ _ _ V1)); exact A) (tameb_evolves _ _ _ _ _ V1 T)) as (b2 & o2 & i2 & p2 & E2 & V2 & R2 & P2).
    exists b2, o2, i2, p2. split; [exact E2|]. split; [eapply evolves_trans; eauto|]. rewrite <- app_assoc in R2, P2. split; [exact R2|].
    rewrite P2. destruct d as [|x d]; cbn [List.app]; [unfold after, wat; rewrite len_nil, Z.add_0_r; reflexivity|].
    destruct (put_after c p (x :: d) ltac:(discriminate)) as [_ ->]. cbn [List.length Nat.eqb].
    destruct (concat ds); cbn [List.length Nat.eqb]; [now rewrite app_nil_r|reflexivity].
Qed.
(** writelines() appends the concatenation of what it is given. *)
Theorem C52_writelines_appending : forall k w o i f size ops outs b, k <> BReader -> appended k w o i f size ops outs b ->
  exists c p lag, apruns (acc_kind k) (n_data i, o_pos o, 0) ops outs (c, p, lag) /\
    forall ds, concat ds <> [] -> exists b', b_writelines k ds b = (Ok tt, b')
      /\ appends_as k (o_uid o) b' (c ++ concat ds) (len (c ++ concat ds)).
Proof.
  intros k w o i f size ops outs b K H. destruct (appended_rep _ _ _ _ _ _ _ _ _ H) as (o' & i' & c & p & R & Ap & T & P & U & _ & X).
  exists c, p, (lagof b o' i'). split; [exact X|]. intros ds Hd.
  destruct (write_all_appends k (not_reader _ K) ds b o' i' c p R Ap T) as (b' & o2 & i2 & p2 & E & V & R2 & P2).
  destruct (concat ds) as [|x d]; [contradiction|]. cbn [List.length Nat.eqb] in P2. subst p2.
  exists b'. split; [unfold b_writelines, bind; rewrite (check_closed_rep _ _ _ _ _ _ R); exact E|]. rewrite <- U. eapply appends_after; eauto.
Qed.

Example C52_C53_appending_example :
  let '(f, w) := demo_open "f" true true true (demo [97;10;98;99;10;100] [IoFull; IoFull; IoShort 1; IoShort 2] [] []) in
  let '(_, b0) := run_bops BRandom [BoWrite [101]; BoSeek 0 0] (fresh f 4 w) in
  let '(l1, b1) := b_readline BRandom (-1) b0 in
  let '(r1, b2) := b_readinto BRandom 2 true b1 in
  let '(r2, b3) := b_writelines BRandom [[1;10];[2]] b2 in
  let '(_, b4) := run_bops BRandom [BoSeek 2 0] b3 in
  let '(l2, b5) := b_readlines BRandom 0 b4 in
  l1 = Ok [97;10] /\ r1 = Ok [98] /\ r2 = Ok tt /\ l2 = Ok [[98;99;10];[100;101;1;10];[2]].
Proof. vm_compute. repeat split. Qed.
Example C52_appended_inhabited : exists f w o i outs b, appended BRandom w o i f 4 [BoWrite [101]; BoSeek 0 0] outs b.
Proof.
  destruct (demo_open "f" true true true (demo [97;10;98] [] [] [])) as [f w] eqn:E.
  destruct (run_bops BRandom [BoWrite [101]; BoSeek 0 0] (fresh f 4 w)) as [outs b] eqn:E2. vm_compute in E. injection E as <- <-.
  eexists _, _, _, _, outs, b. split; [|split; [exact E2|]].
  - constructor; [constructor; try reflexivity; cbn; lia|reflexivity|lia|cbn; auto|cbn; auto|intros e []].
  - intros _. vm_compute in E2. injection E2 as <- _. cbn. auto 10.
Qed.

Print Assumptions C33_fresh_after_lock_appending.
Print Assumptions C34_unlock_flushes_first_appending.
Print Assumptions C34_unlock_flushes_first_appending_any_kind.
Print Assumptions C34_close_flushes_first_appending_partial.
Print Assumptions C35_size_counts_buffered_appending.
Print Assumptions C35_size_counts_buffered_appending_any_kind.
Print Assumptions C38_buffered_sync_durable_appending.
Print Assumptions C38_buffered_sync_durable_appending_any_kind.
Print Assumptions C52_readline_appending.
Print Assumptions C52_readline_whole_appending.
Print Assumptions C52_readlines_appending.
Print Assumptions C53_readinto1_appending.
Print Assumptions C53_readinto_or_error_appending_partial.
Print Assumptions C53_readinto_after_seek_appending_partial.
Print Assumptions C52_writelines_appending.
