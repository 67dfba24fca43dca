(** Lemmas about what rsopen returns, for the functions reading and writing whole files. *)
From Coq Require Import ZArith Ascii String List Bool Lia.
From Verif Require Import M_Base M_Modes M_Registry M_Kernel M_World M_Raw M_Open M_Buffered M_Files
  S_Bytes S_Raw S_Locks S_LockFile S_Open S_Buffered S_Files
  P_Bytes P_Raw P_Close P_Frame P_LockFile P_Lock C_Lock P_Open P_Buffered P_BufOps P_BufRun.
Import ListNotations.
Open Scope Z_scope.

Lemma open_tail_ok a ek f w s w' : open_tail a ek f w = (Ok s, w') ->
  (if ek_binary ek then w' = w else make_text f (a_text_error a) w = (Ok tt, w')) /\ st_raw s = f
  /\ ((st_layer s = LRaw /\ a_buffering a = Some 0 /\ ek_binary ek = true)
      \/ (0 < st_bufsize s /\ a_buffering a <> Some 0 /\ make_buffer f w = (Ok (st_layer s), w))).
Proof.
  unfold open_tail. set (b0 := match a_buffering a with None => -1 | Some b => b end). cbv zeta. unfold bind at 1.
  match goal with |- (match ?x with _ => _ end) = _ -> _ => destruct x as [r1 w1] eqn:E1 end.
  assert (w1 = w) as ->.
  { destruct (b0 =? 1); [now injection E1|]. destruct (b0 <? 0); [eapply isatty_world; eauto|now injection E1]. }
  destruct r1 as [line|]; [|discriminate].
  assert (Hl : line = true -> b0 = 1).
  { intros ->. destruct (Z.eqb_spec b0 1); auto. destruct (b0 <? 0); [|discriminate E1].
    unfold raw_isatty, bind, check_closed, ret, raise in E1. destruct (f_closed f); [discriminate|].
    destruct (fd_of f =? 0); discriminate. }
  unfold bind at 1. destruct (buffer_size f _ w) as [r2 w2] eqn:E2. pose proof (buffer_size_world _ _ _ _ _ E2). subst w2.
  destruct r2 as [b|]; [|discriminate].
  assert (Hb0 : b = 0 -> b0 = 0).
  { intros ->. unfold buffer_size in E2. destruct (Z.ltb_spec (if line then -1 else b0) 0) as [Hlt|Hge].
    - exfalso. destruct (fd_of f =? 0); [discriminate E2|]. destruct (w_fds w (fd_of f)); [|discriminate E2].
      destruct (Z.ltb_spec 1 (w_blk w)); [injection E2 as E2; lia|discriminate E2].
    - injection E2 as E2. destruct line; lia. }
  assert (Hb1 : b0 = 0 -> b = 0).
  { intros X. destruct line; [specialize (Hl eq_refl); lia|]. unfold buffer_size in E2. rewrite X in E2. now injection E2 as <-. }
  destruct (Z.ltb_spec b 0); [discriminate|].
  destruct (Z.eqb_spec b 0) as [Eb|Nb].
  - destruct (ek_binary ek); [|discriminate]. intros [= <- <-]. split; auto. split; auto. left. split; auto. split; [|auto]. specialize (Hb0 Eb).
    unfold b0 in Hb0. destruct (a_buffering a); [now subst|discriminate].
  - unfold bind at 1. destruct (make_buffer f w) as [r3 w3] eqn:E3. pose proof (make_buffer_world _ _ _ _ E3). subst w3.
    destruct r3 as [l|]; [|discriminate].
    assert (X : a_buffering a <> Some 0) by (intros X; apply Nb, Hb1; unfold b0; now rewrite X).
    destruct (ek_binary ek).
    + intros [= <- <-]. split; auto. split; auto. right. cbn [st_bufsize st_layer]. split; [lia|]. auto.
    + unfold bind. destruct (make_text f (a_text_error a) w) as [[[]|] w4]; [|discriminate]. intros [= <- <-]. split; auto. split; auto. right.
      cbn [st_bufsize st_layer]. split; [lia|]. auto.
Qed.

Lemma make_buffer_layer f w l w' : make_buffer f w = (Ok l, w') ->
  l = if f_readable f && f_writable f then LRandom else if f_writable f then LWriter else LReader.
Proof.
  unfold make_buffer, bind, ret, raise. destruct (f_readable f && f_writable f).
  - destruct (check_seekable f w) as [[] w1]; [now intros [= <- <-]|discriminate].
  - destruct (f_writable f); [now intros [= <- <-]|]. destruct (f_readable f); [now intros [= <- <-]|discriminate].
Qed.

Lemma make_text_ok f e w w' o i : live f w o i -> make_text f e w = (Ok tt, w') -> live f w' o i /\ frame (fd_of f) (o_uid o) w w'.
Proof.
  intros L. unfold make_text. destruct e; [discriminate|]. destruct (f_seekable f && f_writable f); [|intros [= <-]; auto with frame].
  unfold bind. rewrite (raw_tell_live _ _ _ _ L). intros [= <-].
  split; [now apply live_refd|apply frame_fd].
Qed.

(** The state in which [rsopen] leaves a stream opened by path on a regular file. *)
Record ready (rk : raw_kwargs) (a : openargs) (ek : ext_kwargs) (p : list ascii) (w : world) (s : stream) (w' : world)
    (fd : Z) (o : ofd) (i i1 i2 : inode) (w0 w1 : world) : Prop := mkReady {
  rd_checks : init_checks rk = Ok tt;
  rd_open : opened rk p w w0 fd o i;
  rd_raw : st_raw s = stream_of rk w fd o i;
  rd_lock : if a_locking a then raw_lock_file (st_raw s) (a_timeout a) PNone PNone 0 SNone w0 = (Ok (None, 0), w1) else w1 = w0;
  rd_i1 : w_inodes w1 (o_uid o) = Some i1;
  rd_others : others_only (w_env w) i i1;
  rd_nolock : a_locking a = false -> i1 = i;
  rd_live1 : live (st_raw s) w1 o i1;
  rd_live : live (st_raw s) w' o i2;
  rd_data : n_data i2 = if ek_truncate ek then [] else n_data i1;
  rd_dirty : ek_truncate ek = false -> i2 = i1;
  rd_frame : frame fd (o_uid o) w1 w';
  rd_layer : (st_layer s = LRaw /\ a_buffering a = Some 0 /\ ek_binary ek = true)
      \/ (0 < st_bufsize s /\ a_buffering a <> Some 0
          /\ st_layer s = if rk_read rk && (rk_write rk || rk_append rk) then LRandom
                          else if rk_write rk || rk_append rk then LWriter else LReader) }.

Lemma others_only_kind E i i' : others_only E i i' -> n_kind i' = n_kind i.
Proof. intros [-> |(ev & d & _ & _ & ->)]; reflexivity. Qed.

Lemma rsopen_ready py_u a p w s w' rk ek :
  asks_path a p -> not_pipe w p ->
  rsopen_prelude py_u (a_name a) (a_mode a) (a_fileno a) (a_handle a) (a_closefd a)
      (a_opener a) (a_thread_safe a) (a_mutex a) (a_enc a) (a_errs a) (a_nl a) = Ok (rk, ek) ->
  rsopen py_u a w = (Ok s, w') ->
  exists fd o i i1 i2 w0 w1, ready rk a ek p w s w' fd o i i1 i2 w0 w1.
Proof.
  intros Ha Np Ep H. unfold rsopen in H. rewrite Ep in H.
  destruct (prelude_fields _ _ _ _ Ep) as [F _]. destruct (F p Ha) as [Hp Hcl].
  unfold bind in H. destruct (raw_open rk w) as [[f|e] w0] eqn:Eo; [|discriminate].
  apply (raw_open_path rk p) in Eo; auto.
  inversion Eo as [|?|w0' fd o i Hck Ho Hk]; subst. set (f := stream_of rk w fd o i) in *.
  assert (Kr : n_kind i = KReg).
  { destruct (op_how _ _ _ _ _ _ _ Ho) as [(A & B & _)|(_ & _ & _ & ->)]; [|reflexivity].
    specialize (Np _ _ A B). destruct (n_kind i); congruence. }
  assert (L0 : live f w0 o i).
  { constructor; try apply Ho; auto.
    - rewrite (op_pos _ _ _ _ _ _ _ Ho), Kr. destruct (rk_append rk); lia.
    - unfold f, stream_of. cbn [f_seekable]. now rewrite Kr. }
  destruct (open_wrap_cases _ _ _ _ _ _ H) as (r1 & w2 & E1 & [(<- & <- & _)|(e & r2 & _ & _ & _ & e' & X)]); [|discriminate].
  unfold open_body in E1. unfold bind at 1 in E1. rewrite (lv_seek _ _ _ _ L0) in E1.
  match type of E1 with (match ?x with _ => _ end) = _ => destruct x as [r3 w3] eqn:E3 end.
  change (match r3 with Ok _ => open_tail a ek f w3 | Err e => (Err e, w3) end = (Ok s, w')) in E1.
  destruct r3 as [[]|]; [|discriminate].
  destruct (open_tail_ok _ _ _ _ _ _ E1) as (Hw' & Hs & Hl).
  assert (X : exists w1 i1, (if a_locking a then raw_lock_file f (a_timeout a) PNone PNone 0 SNone w0 = (Ok (None, 0), w1) else w1 = w0)
    /\ w_inodes w1 (o_uid o) = Some i1 /\ others_only (w_env w) i i1 /\ (a_locking a = false -> i1 = i) /\ live f w1 o i1
    /\ (if ek_truncate ek then raw_truncate f (Some 0) ;; ret tt else ret tt) w1 = (Ok tt, w3)).
  { unfold bind at 1 in E3. destruct (a_locking a) eqn:El.
    - unfold bind at 1 in E3.
      destruct (raw_lock_file f (a_timeout a) PNone PNone 0 SNone w0) as [[[ln off]|e] w1] eqn:Ek; [|discriminate].
      assert (ln = None /\ off = 0) as [-> ->].
      { rewrite C21_lock_file_default_share in Ek. apply C21_lock_file_obtains in Ek.
        destruct Ek as (-> & [[_ ->]|(o' & i' & _ & _ & [[X _]|[X _]])] & _); auto; discriminate. }
      pose proof (lock_file_touched _ _ _ _ _ _ _ _ _ Ek (o_uid o)) as T.
      rewrite (lv_ino _ _ _ _ L0) in T. unfold touched in T. destruct (w_inodes w1 (o_uid o)) as [i1|] eqn:Ei; [|contradiction].
      rewrite (op_env _ _ _ _ _ _ _ Ho) in T.
      pose proof (lock_file_env _ _ _ _ _ _ _ _ _ Ek) as (_ & _ & _ & _ & Hfd).
      exists w1, i1. split; [reflexivity|]. split; [exact Ei|]. split; [exact T|]. split; [discriminate|].
      split; [|exact E3]. constructor; try apply L0; [rewrite Hfd; apply L0|exact Ei|].
      rewrite (others_only_kind _ _ _ T). exact Kr.
    - unfold ret at 1 in E3. exists w0, i. split; [reflexivity|]. split; [apply L0|]. split; [now left|]. auto. }
  destruct X as (w1 & i1 & X1 & X2 & X3 & X4 & L1 & X5).
  assert (Y : exists i2, live f w3 o i2 /\ n_data i2 = (if ek_truncate ek then [] else n_data i1)
                /\ (ek_truncate ek = false -> i2 = i1) /\ frame fd (o_uid o) w1 w3).
  { destruct (ek_truncate ek) eqn:Et.
    - unfold bind in X5. destruct (f_writable f) eqn:Wf.
      + rewrite (raw_truncate_eq _ _ _ _ (Some 0) L1 Wf) in X5. cbn [Z.ltb Z.compare] in X5.
        destruct (truncate_body_live f w1 o i1 0 L1 ltac:(lia)) as (r & w4 & E4 & Fr & C). rewrite E4 in X5.
        destruct C as [(-> & i2 & L2 & D2 & _)|(_ & (e & ->) & _)]; [|discriminate]. injection X5 as <-.
        exists i2. split; [exact L2|]. split; [rewrite D2; reflexivity|]. split; [discriminate|exact Fr].
      + unfold raw_truncate, bind in X5. rewrite (check_seekable_live _ _ _ _ L1), (check_writable_live _ _ _ _ L1), Wf in X5. discriminate.
    - injection X5 as <-. exists i1. split; [exact L1|]. split; [reflexivity|]. split; [auto|]. auto with frame. }
  destruct Y as (i2 & L2 & D2 & D3 & Fr).
  assert (Z : live f w' o i2 /\ frame fd (o_uid o) w3 w').
  { destruct (ek_binary ek); [subst w'; auto with frame|]. exact (make_text_ok _ _ _ _ _ _ L2 Hw'). }
  destruct Z as [L3 F3]. pose proof (frame_trans _ _ _ _ _ Fr F3) as Fr3.
  exists fd, o, i, i1, i2, w0, w1. rewrite <- Hs in *. constructor; auto.
  destruct Hl as [Hl|(A & B & C)]; [now left|right]. split; [exact A|]. split; [exact B|].
  apply make_buffer_layer in C. rewrite C, Hs. reflexivity.
Qed.

(** * Reading everything *)

Lemma no_block_incl w w' : incl (w_io w') (w_io w) -> no_block w -> no_block w'.
Proof. intros I [A B]. split; intros X; [apply A|apply B]; apply I, X. Qed.

Lemma inner_read_good f w o i n r w' : live f w o i -> 0 <= n -> no_block w -> inner_read f n w = (Ok r, w') ->
  exists e, r = Some (read_data o i e n)
    /\ w' = upd_fd (set_io w (tl (w_io w))) (fd_of f) (Some (set_pos o (o_pos o + len (read_data o i e n)))).
Proof.
  intros L Hn [A B]. unfold inner_read. destruct (o_rd o) eqn:Rd.
  - rewrite (sys_read_live _ _ _ _ _ L Hn Rd). destruct (hd IoFull (w_io w)) as [|k|x] eqn:E.
    + intros [= <- <-]. exists IoFull. auto.
    + intros [= <- <-]. exists (IoShort k). auto.
    + apply hd_in in E. destruct (Z.eqb_spec x EAGAIN); [subst; contradiction|].
      destruct (Z.eqb_spec x EPIPE); [subst; contradiction|discriminate].
  - rewrite (sys_read_norights _ _ _ _ _ L Rd). discriminate.
Qed.

Lemma readall_loop_good f : forall k acc w o i r w', live f w o i -> no_block w -> o_pos o <= len (n_data i) ->
  readall_loop k f acc w = (Ok r, w') ->
  exists o', r = Some (acc ++ skipn (Z.to_nat (o_pos o)) (n_data i)) /\ live f w' o' i
    /\ o' = set_pos o (len (n_data i)) /\ frame (fd_of f) (o_uid o) w w' /\ w_inodes w' = w_inodes w.
Proof.
  induction k as [|k IH]; intros acc w o i r w' L Nb Hp; cbn [readall_loop]; [discriminate|].
  unfold bind, raw_read_n. unfold bind. rewrite (check_closed_live _ _ _ _ L), (check_readable_live _ _ _ _ L).
  destruct (f_readable f); [|discriminate].
  destruct (inner_read f DEFAULT_BUFFER_SIZE w) as [[r1|] w1] eqn:E; [|discriminate].
  apply (inner_read_good _ _ _ _ _ _ _ L) in E; [|unfold DEFAULT_BUFFER_SIZE; lia|exact Nb].
  destruct E as (e & -> & ->).
  set (d := read_data o i e DEFAULT_BUFFER_SIZE).
  pose proof (lv_pos _ _ _ _ L) as P0.
  destruct (read_data_props o i e DEFAULT_BUFFER_SIZE ltac:(unfold DEFAULT_BUFFER_SIZE; lia) P0) as (A & B & C). fold d in A, B, C.
  assert (F1 : frame (fd_of f) (o_uid o) w (upd_fd (set_io w (tl (w_io w))) (fd_of f) (Some (set_pos o (o_pos o + len d))))).
  { eapply frame_trans; [apply frame_io|apply frame_fd]. }
  pose proof (len_nonneg d) as Ld.
  assert (L1 : live f (upd_fd (set_io w (tl (w_io w))) (fd_of f) (Some (set_pos o (o_pos o + len d)))) (set_pos o (o_pos o + len d)) i).
  { apply live_pos; [now apply live_io|lia]. }
  set (o1 := set_pos o (o_pos o + len d)) in *. clearbody d.
  destruct d as [|x d'].
  - destruct C as [C|C]; auto; [discriminate|]. intros [= <- <-]. exists o1.
    assert (E0 : skipn (Z.to_nat (o_pos o)) (n_data i) = []) by (apply len_zero; rewrite len_skipn; lia).
    rewrite E0, app_nil_r. split; [destruct acc; reflexivity|]. split; [exact L1|]. split; [|auto].
    unfold o1. f_equal. rewrite len_nil. lia.
  - remember (x :: d') as d eqn:Ed.
    assert (Hd : d = firstn (length d) (skipn (Z.to_nat (o_pos o)) (n_data i))) by now apply slice_at_eq.
    assert (Hle : o_pos o + len d <= len (n_data i)) by (destruct B as [[X|X] _]; [congruence|exact X]).
    rewrite Ed. rewrite <- Ed. intros H.
    apply (IH _ _ o1 i) in H; [|exact L1|eapply no_block_incl; [apply (fr_io _ _ _ _ F1)|exact Nb]|exact Hle].
    destruct H as (o' & -> & L' & E' & F' & I'). exists o'. split.
    + rewrite <- app_assoc. do 2 f_equal. rewrite Hd at 1. unfold o1. cbn [set_pos o_pos].
      replace (Z.to_nat (o_pos o + len d)) with (length d + Z.to_nat (o_pos o))%nat by (unfold len; lia).
      rewrite Nat.add_comm, <- skipn_skipn.
      apply firstn_skipn.
    + split; [exact L'|]. split; [rewrite E'; reflexivity|]. split; [eapply frame_trans; eauto|]. rewrite I'. reflexivity.
Qed.

Lemma raw_readall_good f w o i r w' : live f w o i -> no_block w -> o_pos o <= len (n_data i) ->
  raw_readall f w = (Ok r, w') ->
  exists o', r = Some (skipn (Z.to_nat (o_pos o)) (n_data i)) /\ live f w' o' i
    /\ o' = set_pos o (len (n_data i)) /\ frame (fd_of f) (o_uid o) w w' /\ w_inodes w' = w_inodes w.
Proof.
  intros L Nb Hp. unfold raw_readall, readall_fuel, bind. apply (readall_loop_good f _ [] w o i r w' L Nb Hp).
Qed.

(** read() on a stream just opened for reading, buffered or not *)
Lemma s_read_good l f size w o i r b' : live f w o i -> no_block w -> o_pos o <= len (n_data i) ->
  f_readable f = true -> l = LRaw \/ l = LReader ->
  s_read l (fresh f size w) = (Ok r, b') ->
  exists w' o', b' = fresh f size w' /\ r = Some (skipn (Z.to_nat (o_pos o)) (n_data i)) /\ live f w' o' i
    /\ o' = set_pos o (len (n_data i)) /\ frame (fd_of f) (o_uid o) w w' /\ w_inodes w' = w_inodes w.
Proof.
  intros L Nb Hp R Hl H.
  assert (X : exists r1 w', raw_readall f w = (Ok r1, w') /\ b' = fresh f size w'
            /\ (r = r1 \/ exists c, r1 = Some c /\ r = Some c \/ r1 = None)).
  { destruct Hl as [-> | ->]; unfold s_read, on_stream in H; cbn [kind_of] in H.
    - unfold on_raw, raw_read, bind in H. cbn [fresh b_raw b_w] in H.
      rewrite (check_closed_live _ _ _ _ L), (check_readable_live _ _ _ _ L), R in H.
      destruct (raw_readall f w) as [r1 w1]. injection H as -> <-. exists r, w1. auto.
    - unfold b_read, reader_read, read_unlocked, bind, reset_read_buf, on_raw in H.
      cbn [fresh set_rbuf b_raw b_w b_size b_wbuf] in H.
      destruct (raw_readall f w) as [[[c|]|e] w1]; [| |discriminate]; cbn in H; injection H as <- <-.
      + exists (Some c), w1. split; [reflexivity|]. split; [reflexivity|]. right. eauto.
      + exists None, w1. split; [reflexivity|]. split; [reflexivity|]. right. exists []. auto. }
  destruct X as (r1 & w1 & E & -> & Y). apply (raw_readall_good _ _ o i) in E; auto.
  destruct E as (o' & -> & A). exists w1, o'. split; [reflexivity|]. split; [|exact A].
  destruct Y as [-> |(c & [([= <-] & ->)|Y])]; [reflexivity|reflexivity|discriminate].
Qed.

Lemma read_whole_good l f size w o i d b' : live f w o i -> no_block w -> o_pos o = 0 ->
  f_readable f = true -> l = LRaw \/ l = LReader ->
  read_whole l (fresh f size w) = (Ok d, b') ->
  d = n_data i /\ exists w' o', b' = fresh f size w' /\ live f w' o' i /\ frame (fd_of f) (o_uid o) w w' /\ w_inodes w' = w_inodes w.
Proof.
  intros L Nb Hp R Hl. pose proof (len_nonneg (n_data i)) as Ln.
  unfold read_whole, bind, on_raw, readall_fuel. cbn [fresh b_raw b_w].
  rewrite (lv_fd _ _ _ _ L), (lv_ino _ _ _ _ L). change (set_world _ w) with (fresh f size w).
  cbn [read_blocks]. unfold bind at 1. destruct (s_read l (fresh f size w)) as [[r|] b1] eqn:E; [|discriminate].
  apply (s_read_good _ _ _ _ o i) in E; auto; [|lia].
  destruct E as (w1 & o1 & -> & -> & L1 & -> & F1 & I1). rewrite Hp. change (skipn (Z.to_nat 0) (n_data i)) with (n_data i).
  destruct (n_data i) as [|x dd] eqn:Ed.
  - intros [= <- <-]. split; [reflexivity|]. exists w1. eexists. eauto.
  - rewrite <- Ed in *. unfold bind at 1. destruct (s_read l (fresh f size w1)) as [[r|] b2] eqn:E2; [|discriminate].
    apply (s_read_good _ _ _ _ (set_pos o (len (n_data i))) i) in E2; auto.
    2:{ eapply no_block_incl; [apply (fr_io _ _ _ _ F1)|exact Nb]. }
    2:{ cbn. lia. }
    destruct E2 as (w2 & o2 & -> & -> & L2 & -> & F2 & I2). cbn [set_pos o_pos].
    replace (skipn (Z.to_nat (len (n_data i))) (n_data i)) with (@nil Z) by (unfold len; rewrite Nat2Z.id, skipn_all; reflexivity).
    intros [= <- <-]. split; [reflexivity|]. exists w2. eexists. split; [reflexivity|]. split; [exact L2|].
    split; [eapply frame_trans; eauto|congruence].
Qed.

(** * Writing at the end of the file *)

Definition at_end (o : ofd) (i : inode) : Prop := write_pos o i = len (n_data i).

Lemma raw_write_end f w o i d : live f w o i -> at_end o i -> f_writable f = true ->
  exists r w' o' i' x y, raw_write f d w = (r, w') /\ d = x ++ y
    /\ live f w' o' i' /\ at_end o' i' /\ n_data i' = n_data i ++ x /\ sameo o o' /\ frame (fd_of f) (o_uid o) w w'
    /\ ((r = Ok (Some (len x)) /\ (d <> [] -> x <> [])) \/ (x = [] /\ (r = Ok None \/ exists e, r = Err (EOS e)))).
Proof.
  intros L A W. destruct (o_wr o) eqn:Wo.
  2:{ assert (raw_write f d w = (Err (EOS EBADF), w)) as ->.
      { unfold raw_write, inner_write, bind.
        rewrite (check_closed_live _ _ _ _ L), (check_writable_live _ _ _ _ L), W.
        now rewrite (sys_write_norights _ _ _ _ _ L Wo). }
      exists (Err (EOS EBADF)), w, o, i, [], d. rewrite app_nil_r. repeat (split; [solve [auto with frame]|]).
      right. eauto. }
  rewrite (raw_write_live _ _ _ _ d L W Wo).
  assert (Step : forall e, let x := write_bytes e d in
    exists o' i' y,
      let w' := upd_fd (upd_ino (set_io w (tl (w_io w))) (o_uid o) (write_ino o i x)) (fd_of f) (Some (set_pos o (write_pos o i + len x))) in
      d = x ++ y
      /\ live f w' o' i' /\ at_end o' i' /\ n_data i' = n_data i ++ x /\ sameo o o' /\ frame (fd_of f) (o_uid o) w w'
      /\ (d <> [] -> x <> [])).
  { intros e x. exists (set_pos o (write_pos o i + len x)), (write_ino o i x), (skipn (Z.to_nat (len x)) d). cbv zeta.
    pose proof (write_pos_nonneg _ _ _ _ L) as P. pose proof (len_nonneg x) as P2.
    assert (Hd : n_data (write_ino o i x) = n_data i ++ x).
    { unfold write_ino. cbn [n_data]. rewrite A. unfold len. rewrite Nat2Z.id. apply write_at_end. }
    split; [apply write_bytes_split|]. split.
    { apply live_pos; [|lia]. apply (live_data _ _ _ i); [|reflexivity]. now apply live_io. }
    split. { unfold at_end. rewrite Hd, len_app. unfold write_pos at 1. cbn [o_app set_pos o_pos]. rewrite A, Hd, len_app.
             destruct (o_app o); reflexivity. }
    split; [exact Hd|]. split; [apply sameo_pos|].
    split. { eapply frame_trans; [apply frame_io|]. eapply frame_trans; [apply frame_ino|apply frame_fd]. }
    intros Hne X. pose proof (write_bytes_pos e d Hne) as Y. change (0 < len x) in Y. rewrite X in Y. cbn in Y. lia. }
  destruct (hd IoFull (w_io w)) as [|k|x0].
  - destruct (Step IoFull) as (o' & i' & y & S1 & S2 & S3 & S4 & S5 & S6 & S7).
    do 6 eexists. split; [reflexivity|]. split; [exact S1|]. split; [exact S2|]. split; [exact S3|]. split; [exact S4|].
    split; [exact S5|]. split; [exact S6|]. left. auto.
  - destruct (Step (IoShort k)) as (o' & i' & y & S1 & S2 & S3 & S4 & S5 & S6 & S7).
    do 6 eexists. split; [reflexivity|]. split; [exact S1|]. split; [exact S2|]. split; [exact S3|]. split; [exact S4|].
    split; [exact S5|]. split; [exact S6|]. left. auto.
  - exists (if x0 =? EAGAIN then Ok None else Err (EOS x0)), (set_io w (tl (w_io w))), o, i, [], d.
    split; [reflexivity|]. split; [reflexivity|]. split; [now apply live_io|]. split; [exact A|].
    split; [now rewrite app_nil_r|]. split; [auto with frame|]. split; [auto with frame|].
    right. split; [reflexivity|]. destruct (x0 =? EAGAIN); eauto.
Qed.

(** A stream writing at the end: the file and the buffer together. *)
Record ends (b : bstate) (o : ofd) (i : inode) (c : list Z) : Prop := mkEnds {
  en_live : live (b_raw b) (b_w b) o i;
  en_end : at_end o i;
  en_wr : f_writable (b_raw b) = true;
  en_c : n_data i ++ b_wbuf b = c }.

Lemma flush_loop_end : forall fuel b o i c, ends b o i c -> (length (b_wbuf b) < fuel)%nat ->
  exists r b' o' i', flush_loop fuel b = (r, b') /\ ends b' o' i' c /\ evolves b b' o o'
    /\ (exists x, n_data i' = n_data i ++ x) /\ (r = Ok tt -> b_wbuf b' = []).
Proof.
  induction fuel as [|fuel IH]; intros b o i c R Hf; [lia|]. cbn [flush_loop]. destruct (b_wbuf b) as [|x0 l] eqn:Ew.
  { exists (Ok tt), b, o, i. split; [reflexivity|]. split; [exact R|]. split; [auto with frame|]. split; [exists []; now rewrite app_nil_r|auto]. }
  set (buf := x0 :: l) in *. assert (Hne : buf <> []) by discriminate. clearbody buf. clear x0 l.
  destruct R as [L A W C]. unfold bind, on_raw at 1.
  destruct (raw_write_end _ _ _ _ buf L A W) as (r & w' & o' & i' & x & y & -> & Hd & L' & A' & D' & So & Fr & Hr).
  assert (R1 : ends (set_wbuf (set_world b w') y) o' i' c).
  { constructor; auto. cbn [set_wbuf b_wbuf]. rewrite D', <- C, Ew, Hd, app_assoc. reflexivity. }
  destruct Hr as [(-> & Hx)|(-> & Hr)].
  - cbv beta iota zeta. pose proof (len_nonneg x) as P. specialize (Hx Hne).
    assert (Hl : len buf = len x + len y) by (rewrite Hd; apply len_app). pose proof (len_nonneg y) as P3.
    assert ((Z.of_nat (length buf) <? len x) || (len x <? 0) = false) as ->.
    { apply orb_false_iff; split; apply Z.ltb_ge; unfold len in *; lia. }
    assert (Hs : skipn (Z.to_nat (len x)) (b_wbuf (set_world b w')) = y).
    { cbn [set_world b_wbuf]. rewrite Ew, Hd. unfold len. rewrite Nat2Z.id. apply skipn_app_length || (rewrite skipn_app, skipn_all, Nat.sub_diag; reflexivity). }
    rewrite Hs.
    destruct (IH _ _ _ _ R1) as (r2 & b2 & o2 & i2 & E2 & R2 & V2 & (x2 & D2) & F2).
    { cbn [set_wbuf b_wbuf]. rewrite Hd, app_length in Hf. destruct x; [congruence|]. cbn [length] in Hf. lia. }
    exists r2, b2, o2, i2. split; [exact E2|]. split; [exact R2|]. split.
    { eapply evolves_trans; [|exact V2]. constructor; auto. }
    split; [|exact F2]. exists (x ++ x2). rewrite D2, D', app_assoc. reflexivity.
  - rewrite app_nil_l in Hd. subst y.
    assert (set_wbuf (set_world b w') buf = set_world b w') as X by (destruct b; cbn in *; now subst).
    rewrite X in R1.
    assert (V1 : evolves b (set_world b w') o o') by now apply evolves_world.
    destruct Hr as [-> |(e & ->)].
    + exists (Err (EBlocking 0)), (set_world b w'), o', i'. split; [reflexivity|]. split; [exact R1|]. split; [exact V1|]. split; [eauto|discriminate].
    + exists (Err (EOS e)), (set_world b w'), o', i'. split; [reflexivity|]. split; [exact R1|]. split; [exact V1|]. split; [eauto|discriminate].
Qed.

Lemma flush_end b o i c : ends b o i c ->
  exists r b' o' i', flush_unlocked b = (r, b') /\ ends b' o' i' c /\ evolves b b' o o'
    /\ (exists x, n_data i' = n_data i ++ x) /\ (r = Ok tt -> b_wbuf b' = []).
Proof.
  intros R. unfold flush_unlocked, bind, b_check_closed. rewrite (lv_open _ _ _ _ (en_live _ _ _ _ R)).
  apply flush_loop_end; [exact R|lia].
Qed.

Lemma firstn_prefix {A} n (a b : list A) x : a ++ x = b -> (length a <= n)%nat -> exists y, firstn n b = a ++ y /\ exists z, x = y ++ z.
Proof.
  intros <- H. exists (firstn (n - length a) x). split; [now apply firstn_app_ge|].
  exists (skipn (n - length a) x). symmetry. apply firstn_skipn.
Qed.

(** The first write of a stream. *)
Lemma writer_write_end f size w o i d : live f w o i -> at_end o i -> f_writable f = true -> 0 <= size ->
  exists r b' o' i' x y, writer_write d (fresh f size w) = (r, b') /\ d = x ++ y
    /\ ends b' o' i' (n_data i ++ x) /\ evolves (fresh f size w) b' o o'
    /\ (exists t, n_data i' = n_data i ++ t) /\ (forall n, r = Ok n -> y = []).
Proof.
  intros L A W Hs.
  assert (R0 : ends (set_wbuf (fresh f size w) d) o i (n_data i ++ d)) by (constructor; auto).
  unfold writer_write, bind at 1, b_check_closed. cbn [fresh b_raw]. rewrite (lv_open _ _ _ _ L).
  unfold bind at 1. cbn [b_size fresh b_wbuf length]. destruct (Z.ltb_spec size (Z.of_nat 0)); [lia|].
  unfold bind. change (mkB f size [] 0 [] w) with (fresh f size w).
  change (set_wbuf (fresh f size w) (b_wbuf (fresh f size w) ++ d)) with (set_wbuf (fresh f size w) d).
  cbv zeta. destruct (b_size _ <? _).
  - destruct (flush_end _ _ _ _ R0) as (r & b' & o' & i' & E & R' & V' & T' & F'). rewrite E.
    assert (V : evolves (fresh f size w) b' o o').
    { destruct V'. constructor; auto. }
    destruct r as [u|e].
    + exists (Ok (Z.of_nat (length d))), b', o', i', d, []. rewrite app_nil_r. split; [reflexivity|]. split; [reflexivity|].
      split; [exact R'|]. auto.
    + assert (Same : exists b2 o2 i2 x y, b' = b2 /\ d = x ++ y
    /\ ends b2 o2 i2 (n_data i ++ x) /\ evolves (fresh f size w) b2 o o2
    /\ (exists t, n_data i2 = n_data i ++ t) /\ y = []).
      { exists b', o', i', d, []. rewrite app_nil_r. split; [reflexivity|]. split; [reflexivity|]. auto. }
      destruct e; try (destruct Same as (b2 & o2 & i2 & x & y & <- & S1 & S2 & S3 & S4 & S5);
         eexists; exists b', o2, i2, x, y; split; [reflexivity|]; split; [exact S1|]; split; [exact S2|]; split; [exact S3|];
         split; [exact S4|]; intros; exact S5).
      destruct (Z.ltb_spec (b_size b') (Z.of_nat (length (b_wbuf b')))) as [Hlt|Hge].
      * pose proof (ev_size _ _ _ _ V) as Es. cbn [fresh b_size] in Es. destruct R' as [L' A' W' C'].
        destruct T' as (t & T'). rewrite T', <- app_assoc in C'. apply app_inv_head in C'.
        set (m := Z.to_nat (b_size b')). 
        eexists. exists (set_wbuf b' (firstn m (b_wbuf b'))), o', i', (t ++ firstn m (b_wbuf b')), (skipn m (b_wbuf b')).
        split; [reflexivity|]. split; [rewrite <- C', <- app_assoc, firstn_skipn; reflexivity|].
        split. { constructor; auto. cbn [set_wbuf b_wbuf]. now rewrite T', <- app_assoc. }
        split. { eapply evolves_trans; [exact V|]. apply evolves_wbuf. auto with frame. }
        split; [eauto|discriminate].
      * exists (Ok (Z.of_nat (length d))), b', o', i', d, []. rewrite app_nil_r. split; [reflexivity|]. split; [reflexivity|].
        split; [exact R'|]. auto.
  - eexists. exists (set_wbuf (fresh f size w) d), o, i, d, []. rewrite app_nil_r. split; [reflexivity|]. split; [reflexivity|].
    split; [exact R0|]. split; [apply evolves_wbuf; auto with frame|]. split; [exists []; now rewrite app_nil_r|]. auto.
Qed.

Lemma sys_flush_live f w o i : live f w o i ->
  sys_flush_to_disk (fd_of f) w =
  match hd IoFull (w_io w) with
  | IoErr x => (Err (EOS x), set_io w (tl (w_io w)))
  | _ => (Ok tt, upd_ino (set_io w (tl (w_io w))) (o_uid o) (mkIno KReg (n_data i) false))
  end.
Proof.
  intros L. unfold sys_flush_to_disk, bind. rewrite (get_fd_live _ _ _ _ L), next_io_eq, (lv_kind _ _ _ _ L).
  destruct (hd IoFull (w_io w)); reflexivity.
Qed.
Lemma attempt_flush_live f otherwise w o i : live f w o i ->
  (forall w1, live f w1 o i -> exists r w' i', otherwise w1 = (r, w') /\ live f w' o i' /\ n_data i' = n_data i
     /\ frame (fd_of f) (o_uid o) w1 w' /\ (r = Ok tt -> n_dirty i' = false)) ->
  exists r w' i', attempt_os (sys_flush_to_disk (fd_of f)) otherwise w = (r, w') /\ live f w' o i' /\ n_data i' = n_data i
     /\ frame (fd_of f) (o_uid o) w w' /\ (r = Ok tt -> n_dirty i' = false).
Proof.
  intros L K. unfold attempt_os. rewrite (sys_flush_live _ _ _ _ L).
  assert (Good : exists r w' i', (Ok tt, upd_ino (set_io w (tl (w_io w))) (o_uid o) (mkIno KReg (n_data i) false)) = (r, w')
     /\ live f w' o i' /\ n_data i' = n_data i
     /\ frame (fd_of f) (o_uid o) w w' /\ (r = Ok tt -> n_dirty i' = false)).
  { do 3 eexists. split; [reflexivity|]. split; [apply (live_data _ _ _ i); [now apply live_io|reflexivity]|].
    split; [reflexivity|]. split; [eapply frame_trans; [apply frame_io|apply frame_ino]|reflexivity]. }
  destruct (hd IoFull (w_io w)) as [|k|x]; [exact Good|exact Good|].
  destruct (K _ (live_io _ _ _ _ L)) as (r & w' & i' & E & A & B & C & D).
  exists r, w', i'. split; [exact E|]. split; [exact A|]. split; [exact B|]. split; [|exact D].
  eapply frame_trans; [apply frame_io|exact C].
Qed.
Lemma raw_sync_live h f m ff w o i : live f w o i ->
  exists r w' i', raw_sync h f m ff w = (r, w') /\ live f w' o i' /\ n_data i' = n_data i
    /\ frame (fd_of f) (o_uid o) w w' /\ (r = Ok tt -> n_dirty i' = false).
Proof.
  intros L. unfold raw_sync, bind. rewrite (check_closed_live _ _ _ _ L). unfold inner_sync.
  assert (S3 : forall w1, live f w1 o i -> exists r w' i', sys_flush_to_disk (fd_of f) w1 = (r, w') /\ live f w' o i' /\ n_data i' = n_data i
     /\ frame (fd_of f) (o_uid o) w1 w' /\ (r = Ok tt -> n_dirty i' = false)).
  { intros w1 L1. destruct (attempt_flush_live f (fun w => (Err (EOS 0), w)) w1 o i L1) as (r & w' & i' & E & X).
    { intros w2 L2. exists (Err (EOS 0)), w2, i. repeat (split; [solve [auto with frame]|]). discriminate. }
    unfold attempt_os in E. rewrite (sys_flush_live _ _ _ _ L1) in *. destruct (hd IoFull (w_io w1)).
    1,2: exists r, w', i'; auto.
    injection E as <- <-. eexists. eexists. exists i'. split; [reflexivity|]. destruct X as (X1 & X2 & X3 & _).
    repeat (split; auto). discriminate. }
  assert (S2 : forall w1, live f w1 o i -> exists r w' i',
      (if negb m && h then attempt_os (sys_flush_to_disk (fd_of f)) (sys_flush_to_disk (fd_of f)) else sys_flush_to_disk (fd_of f)) w1 = (r, w')
      /\ live f w' o i' /\ n_data i' = n_data i /\ frame (fd_of f) (o_uid o) w1 w' /\ (r = Ok tt -> n_dirty i' = false)).
  { intros w1 L1. destruct (negb m && h); [|auto]. apply attempt_flush_live; auto. }
  destruct ff; [|auto]. apply attempt_flush_live; auto.
Qed.

(** * Closing, and the whole of write_body *)

(** Nothing but the file [u] changed. *)
Definition only_file (u : uid) (w w' : world) : Prop :=
  w_names w' = w_names w /\ w_env w' = w_env w /\ forall v, v <> u -> w_inodes w' v = w_inodes w v.
Lemma only_file_refl u w : only_file u w w.
Proof. repeat split. Qed.
Lemma only_file_trans u a b c : only_file u a b -> only_file u b c -> only_file u a c.
Proof. intros (A1 & A2 & A3) (B1 & B2 & B3). split; [congruence|]. split; [congruence|]. intros v Hv. now rewrite B3, A3. Qed.
Lemma only_file_frame fd u w w' : frame fd u w w' -> only_file u w w'.
Proof. intros F. split; [|split]; apply F. Qed.
Lemma only_file_kept u w w' : kept w w' -> only_file u w w'.
Proof. intros K. split; [apply K|]. split; [apply K|]. intros. now rewrite (kp_inodes _ _ K). Qed.
Lemma only_file_evolves b b' o o' : evolves b b' o o' -> only_file (o_uid o) (b_w b) (b_w b').
Proof. intros V. eapply only_file_frame, V. Qed.

Lemma raw_close_b_inodes b r b' : raw_close_b b = (r, b') -> kept (b_w b) (b_w b').
Proof.
  unfold raw_close_b. destruct (raw_close (b_raw b) (b_w b)) as [r1 w1] eqn:E. intros [= <- <-]. cbn. eapply raw_close_kept; eauto.
Qed.

Lemma s_close_end l b o i c r b' : l = LRaw /\ b_wbuf b = [] \/ l = LWriter -> ends b o i c -> s_close l b = (r, b') ->
  exists i' t, n_kind i' = KReg /\ w_inodes (b_w b') (o_uid o) = Some i' /\ n_data i' ++ t = c
    /\ (exists x, n_data i' = n_data i ++ x) /\ only_file (o_uid o) (b_w b) (b_w b') /\ (b_wbuf b = [] -> i' = i) /\ (r = Ok tt -> t = []).
Proof.
  intros Hl R H. unfold s_close, on_stream in H. destruct Hl as [(-> & Hw)| ->]; cbn [kind_of] in H.
  - apply raw_close_b_inodes in H. exists i, []. rewrite app_nil_r, (kp_inodes _ _ H). split; [apply (lv_kind _ _ _ _ (en_live _ _ _ _ R))|]. split; [apply R|].
    split; [rewrite <- (en_c _ _ _ _ R), Hw, app_nil_r; reflexivity|]. split; [exists []; now rewrite app_nil_r|].
    split; [now apply only_file_kept|auto].
  - unfold b_close in H. rewrite (lv_open _ _ _ _ (en_live _ _ _ _ R)) in H. unfold finally, b_flush in H.
    destruct (flush_end _ _ _ _ R) as (r1 & b1 & o1 & i1 & E1 & R1 & V1 & T1 & F1).
    destruct (flush_unlocked b) as [r1' b1'] eqn:E1'. injection E1 as -> ->.
    assert (Hi : b_wbuf b = [] -> i1 = i).
    { intros Hw. unfold flush_unlocked, bind, b_check_closed in E1'. rewrite (lv_open _ _ _ _ (en_live _ _ _ _ R)) in E1'.
      rewrite Hw in E1'. cbn [length flush_loop] in E1'. rewrite Hw in E1'. injection E1' as <- <-.
      pose proof (lv_fd _ _ _ _ (en_live _ _ _ _ R)) as X1. rewrite (lv_fd _ _ _ _ (en_live _ _ _ _ R1)) in X1. injection X1 as ->.
      pose proof (lv_ino _ _ _ _ (en_live _ _ _ _ R)) as X2. rewrite (lv_ino _ _ _ _ (en_live _ _ _ _ R1)) in X2. congruence. }
    destruct (raw_close_b b1) as [r2 b2] eqn:E2. pose proof (raw_close_b_inodes _ _ _ E2) as K.
    assert (b' = b2) as -> by (destruct r2; injection H as <- <-; reflexivity).
    exists i1, (b_wbuf b1). rewrite (kp_inodes _ _ K). split; [apply (lv_kind _ _ _ _ (en_live _ _ _ _ R1))|]. split.
    { rewrite <- (so_uid _ _ (ev_o _ _ _ _ V1)). apply R1. }
    split; [apply R1|]. split; [exact T1|]. split; [|split; [exact Hi|]].
    + eapply only_file_trans; [apply (only_file_evolves _ _ _ _ V1)|now apply only_file_kept].
    + intros ->. destruct r2 as [[]|]; [|discriminate]. injection H as ->. auto.
Qed.

Lemma ends_world b o i c w o' i' : ends b o i c -> live (b_raw b) w o' i' -> at_end o' i' -> n_data i' = n_data i ->
  ends (set_world b w) o' i' c.
Proof. intros [] L A D. constructor; auto. cbn [set_world b_wbuf]. now rewrite D. Qed.

(** flush() then perhaps sync() *)
Lemma flush_sync_end h (sync : bool) l b o i c r b' : l = LRaw /\ b_wbuf b = [] \/ l = LWriter -> ends b o i c ->
  (s_flush l ;; if sync then s_sync h l else ret tt) b = (r, b') ->
  exists o' i', ends b' o' i' c /\ evolves b b' o o' /\ (exists x, n_data i' = n_data i ++ x)
    /\ (l = LRaw -> b_wbuf b' = [])
    /\ (r = Ok tt -> b_wbuf b' = [] /\ (sync = true -> n_dirty i' = false)).
Proof.
  intros Hl R H. unfold bind, s_flush, s_sync, on_stream in H. destruct Hl as [(-> & Hw)| ->]; cbn [kind_of] in H.
  - unfold on_raw in H. unfold raw_flush in H at 1. rewrite (check_closed_live _ _ _ _ (en_live _ _ _ _ R)) in H.
    rewrite set_world_same in H. destruct sync.
    + destruct (raw_sync_live h _ true true _ _ _ (en_live _ _ _ _ R)) as (r1 & w1 & i1 & E1 & L1 & D1 & F1 & S1).
      rewrite E1 in H. injection H as <- <-. exists o, i1. split.
      { eapply ends_world; eauto. unfold at_end, write_pos. rewrite D1. apply R. }
      split; [apply evolves_world; auto with frame|]. split; [exists []; now rewrite app_nil_r|]. auto.
    + injection H as <- <-. exists o, i. split; [exact R|]. split; [auto with frame|]. split; [exists []; now rewrite app_nil_r|].
      split; [auto|]. intros _. split; [auto|discriminate].
  - cbn [b_flush] in H. destruct (flush_end _ _ _ _ R) as (r1 & b1 & o1 & i1 & E1 & R1 & V1 & T1 & F1). rewrite E1 in H.
    destruct r1 as [[]|e].
    2:{ injection H as <- <-. exists o1, i1. split; [exact R1|]. split; [exact V1|]. split; [exact T1|]. split; discriminate. }
    destruct sync.
    + unfold b_sync, bind in H. cbn [b_flush] in H.
      destruct (flush_end _ _ _ _ R1) as (r2 & b2 & o2 & i2 & E2 & R2 & V2 & (x2 & T2) & F2). rewrite E2 in H.
      destruct T1 as (x1 & T1).
      assert (T : exists x, n_data i2 = n_data i ++ x) by (exists (x1 ++ x2); rewrite T2, T1, app_assoc; reflexivity).
      assert (V : evolves b b2 o o2) by (eapply evolves_trans; eauto).
      destruct r2 as [[]|e].
      2:{ injection H as <- <-. exists o2, i2. split; [exact R2|]. split; [exact V|]. split; [exact T|]. split; discriminate. }
      unfold on_raw in H.
      destruct (raw_sync_live h _ true true _ _ _ (en_live _ _ _ _ R2)) as (r3 & w3 & i3 & E3 & L3 & D3 & F3 & S3).
      rewrite E3 in H. injection H as <- <-. exists o2, i3. split.
      { eapply ends_world; eauto. unfold at_end, write_pos. rewrite D3. apply R2. }
      split. { eapply evolves_trans; [exact V|]. apply evolves_world; auto with frame. }
      split; [now rewrite D3|]. split; [discriminate|]. intros ->. split; [cbn; auto|]. auto.
    + injection H as <- <-. exists o1, i1. split; [exact R1|]. split; [exact V1|]. split; [exact T1|]. split; [discriminate|].
      intros _. split; [auto|discriminate].
Qed.

Lemma write_body_end h sync d l f size w o i r b' :
  live f w o i -> at_end o i -> f_writable f = true -> l = LRaw \/ l = LWriter /\ 0 <= size ->
  finally (write_body h sync d l) (s_close l) (fresh f size w) = (r, b') ->
  exists i' x y, d = x ++ y /\ n_kind i' = KReg /\ w_inodes (b_w b') (o_uid o) = Some i' /\ n_data i' = n_data i ++ x
    /\ only_file (o_uid o) w (b_w b')
    /\ (r = Ok tt -> (l = LWriter -> y = []) /\ (sync = true -> n_dirty i' = false)).
Proof.
  intros L A W Hl0 H.
  assert (Hl : l = LRaw \/ l = LWriter) by tauto. assert (Hs : l = LWriter -> 0 <= size) by (intros ->; destruct Hl0 as [X|X]; [discriminate|tauto]).
  (* the body *)
  assert (Bd : exists r1 b1 o1 i1 x y, write_body h sync d l (fresh f size w) = (r1, b1) /\ d = x ++ y
     /\ ends b1 o1 i1 (n_data i ++ x) /\ evolves (fresh f size w) b1 o o1 /\ (exists t, n_data i1 = n_data i ++ t)
     /\ (l = LRaw -> b_wbuf b1 = [])
     /\ (r1 = Ok tt -> (l = LWriter -> y = []) /\ b_wbuf b1 = [] /\ (sync = true -> n_dirty i1 = false))).
  { clear H r b'. unfold write_body. unfold bind at 1.
    assert (Wr : exists r0 b0 o0 i0 x y, s_write l d (fresh f size w) = (r0, b0) /\ d = x ++ y
       /\ ends b0 o0 i0 (n_data i ++ x) /\ evolves (fresh f size w) b0 o o0 /\ (exists t, n_data i0 = n_data i ++ t)
       /\ (l = LRaw -> b_wbuf b0 = []) /\ (forall n, r0 = Ok n -> l = LWriter -> y = [])).
    { unfold s_write, on_stream. destruct Hl as [-> | ->]; cbn [kind_of].
      - unfold on_raw. cbn [fresh b_raw b_w].
        destruct (raw_write_end f w o i d L A W) as (r0 & w0 & o0 & i0 & x & y & -> & Hd & L0 & A0 & D0 & So & F0 & _).
        exists r0, (set_world (fresh f size w) w0), o0, i0, x, y. split; [reflexivity|]. split; [exact Hd|].
        split. { constructor; auto. cbn. now rewrite app_nil_r. }
        split. { now apply evolves_world. }
        split; [eauto|]. split; [reflexivity|discriminate].
      - destruct (writer_write_end f size w o i d L A W (Hs eq_refl)) as (r0 & b0 & o0 & i0 & x & y & E0 & Hd & R0 & V0 & T0 & F0).
        unfold bind. cbn [b_write]. rewrite E0. exists (match r0 with Ok n => Ok (Some n) | Err e => Err e end), b0, o0, i0, x, y.
        split; [destruct r0; reflexivity|]. split; [exact Hd|]. split; [exact R0|]. split; [exact V0|]. split; [exact T0|].
        split; [discriminate|]. intros n. destruct r0; [|discriminate]. intros _ _. eapply F0; reflexivity. }
    destruct Wr as (r0 & b0 & o0 & i0 & x & y & -> & Hd & R0 & V0 & (t0 & T0) & Hw & F0).
    destruct r0 as [n|e].
    2:{ exists (Err e), b0, o0, i0, x, y. split; [reflexivity|]. split; [exact Hd|]. split; [exact R0|]. split; [exact V0|].
        split; [eauto|]. split; [exact Hw|discriminate]. }
    destruct ((s_flush l ;; (if sync then s_sync h l else ret tt)) b0) as [r1 b1] eqn:E1.
    apply (flush_sync_end h sync l b0 o0 i0 (n_data i ++ x)) in E1; auto.
    2:{ destruct Hl as [-> | ->]; auto. }
    destruct E1 as (o1 & i1 & R1 & V1 & (t1 & T1) & Hw1 & F1).
    exists r1, b1, o1, i1, x, y. split; [reflexivity|]. split; [exact Hd|]. split; [exact R1|].
    split; [eapply evolves_trans; eauto|]. split; [exists (t0 ++ t1); rewrite T1, T0, app_assoc; reflexivity|]. split; [exact Hw1|].
    intros X. destruct (F1 X) as [F2 F3]. split; [intros Y; eapply F0; eauto|]. auto. }
  destruct Bd as (r1 & b1 & o1 & i1 & x & y & E1 & Hd & R1 & V1 & (t1 & T1) & Hw1 & F1).
  unfold finally in H. rewrite E1 in H. destruct (s_close l b1) as [r2 b2] eqn:E2.
  assert (b' = b2) as -> by (destruct r2; injection H as <- <-; reflexivity).
  apply (s_close_end l b1 o1 i1 (n_data i ++ x)) in E2; auto.
  2:{ destruct Hl as [-> | ->]; auto. }
  destruct E2 as (i2 & t & K2 & I2 & C2 & (t2 & T2) & N2 & S2 & F2).
  rewrite T2, T1, <- !app_assoc in C2. apply app_inv_head in C2.
  exists i2, (t1 ++ t2), (t ++ y). rewrite (so_uid _ _ (ev_o _ _ _ _ V1)) in *.
  split; [rewrite Hd, <- C2, !app_assoc; reflexivity|]. split; [exact K2|]. split; [exact I2|]. split; [rewrite T2, T1, app_assoc; reflexivity|].
  split; [eapply only_file_trans; [apply (only_file_evolves _ _ _ _ V1)|exact N2]|].
  intros ->. destruct r2 as [[]|]; [|discriminate]. injection H as ->. specialize (F2 eq_refl). destruct (F1 eq_refl) as (F3 & F4 & F5).
  rewrite (S2 F4). split; [intros X; now rewrite (F3 X), F2|exact F5].
Qed.

(** * The arguments *)

Definition has_text_args (a : fileargs) : bool := fa_enc a || fa_errs a || fa_nl a.
Definition prelude_of (py_u : bool) (a : openargs) : res (raw_kwargs * ext_kwargs) :=
  rsopen_prelude py_u (a_name a) (a_mode a) (a_fileno a) (a_handle a) (a_closefd a)
      (a_opener a) (a_thread_safe a) (a_mutex a) (a_enc a) (a_errs a) (a_nl a).

Lemma read_prelude py_u a p : fa_name a = NPath p ->
  prelude_of py_u (open_args a read_mode) =
  if has_text_args a then Err EBadValue
  else Ok (mkRaw (NPath p) true false false false true false false None None true, mkExt false true false).
Proof.
  intros H. unfold prelude_of, open_args, has_text_args. destruct a as [n bu en er nl lk ti]. cbn [fa_name] in H. subst n.
  destruct py_u, en, er, nl; cbn; reflexivity.
Qed.
Lemma write_prelude py_u a p mc mn : fa_name a = NPath p ->
  prelude_of py_u (open_args a (write_mode mc mn)) =
  if has_text_args a then Err EBadValue
  else Ok (mkRaw (NPath p) false true false mc mn false false None None true, mkExt (negb mc) true false).
Proof.
  intros H. unfold prelude_of, open_args, has_text_args. destruct a as [n bu en er nl lk ti]. cbn [fa_name] in H. subst n.
  destruct py_u, en, er, nl, mc, mn; cbn; reflexivity.
Qed.
Lemma append_prelude py_u a p mn : fa_name a = NPath p ->
  prelude_of py_u (open_args a (append_mode mn)) =
  if has_text_args a then Err EBadValue
  else Ok (mkRaw (NPath p) false true true false mn false false None None true, mkExt false true false).
Proof.
  intros H. unfold prelude_of, open_args, has_text_args. destruct a as [n bu en er nl lk ti]. cbn [fa_name] in H. subst n.
  destruct py_u, en, er, nl, mn; cbn; reflexivity.
Qed.
