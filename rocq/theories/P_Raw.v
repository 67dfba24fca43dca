(** Raw streams on regular files: every call refines the abstract machine of S_Raw. *)
From Coq Require Import ZArith List Bool Lia.
From Verif Require Import M_Base M_Modes M_Registry M_Kernel M_World M_Raw S_Bytes S_Raw P_Bytes.
Import ListNotations.
Open Scope Z_scope.

Lemma next_io_eq w : next_io w = (Ok (hd IoFull (w_io w)), set_io w (tl (w_io w))).
Proof. unfold next_io. destruct w as [? ? ? ? ? ? ? ? io]; destruct io; reflexivity. Qed.

Lemma upd_same {K V} (eqb : K -> K -> bool) (m : K -> V) k v : eqb k k = true -> upd eqb m k v k = v.
Proof. unfold upd. now intros ->. Qed.
Lemma upd_other {K V} (eqb : K -> K -> bool) (m : K -> V) k v k' : eqb k k' = false -> upd eqb m k v k' = m k'.
Proof. unfold upd. now intros ->. Qed.
Lemma uid_eqb_refl u : uid_eqb u u = true.
Proof. unfold uid_eqb. now rewrite !Z.eqb_refl. Qed.
Lemma uid_eqb_eq a b : uid_eqb a b = true <-> a = b.
Proof.
  unfold uid_eqb. destruct a, b; cbn [fst snd]. rewrite andb_true_iff, !Z.eqb_eq. split; [intros (-> & ->); auto|].
  intros H; inversion H; auto.
Qed.
Lemma uid_eqb_neq a b : a <> b -> uid_eqb a b = false.
Proof. intros H. destruct (uid_eqb a b) eqn:E; auto. apply uid_eqb_eq in E; congruence. Qed.

(** An open stream [f] on a regular file: its description and its inode. *)
Record live (f : rawio) (w : world) (o : ofd) (i : inode) : Prop := mkLive {
  lv_fd : w_fds w (fd_of f) = Some o;
  lv_ino : w_inodes w (o_uid o) = Some i;
  lv_kind : n_kind i = KReg;
  lv_pos : 0 <= o_pos o;
  lv_open : f_closed f = false;
  lv_seek : f_seekable f = true }.

(** Nothing but the position of descriptor [fd], the inode [u] and the outcome
    list changed. *)
Record frame (fd : Z) (u : uid) (w w' : world) : Prop := mkFrame {
  fr_names : w_names w' = w_names w;
  fr_fds : forall fd', fd' <> fd -> w_fds w' fd' = w_fds w fd';
  fr_inodes : forall u', u' <> u -> w_inodes w' u' = w_inodes w u';
  fr_newfd : w_newfd w' = w_newfd w;
  fr_newino : w_newino w' = w_newino w;
  fr_kern : w_kern w' = w_kern w;
  fr_reg : w_reg w' = w_reg w;
  fr_pid : w_pid w' = w_pid w;
  fr_env : w_env w' = w_env w;
  fr_clock : w_clock w' = w_clock w;
  fr_opts : w_opts w' = w_opts w;
  fr_blk : w_blk w' = w_blk w;
  fr_io : incl (w_io w') (w_io w) }.

Lemma incl_tl_refl {A} (l : list A) : incl (tl l) l.
Proof. destruct l; [intros x []|]. intros x H; now right. Qed.

Lemma frame_refl fd u w : frame fd u w w.
Proof. constructor; auto using incl_refl. Qed.
Lemma frame_trans fd u a b c : frame fd u a b -> frame fd u b c -> frame fd u a c.
Proof.
  intros [] []. constructor; try congruence; intros.
  - rewrite fr_fds1, fr_fds0; auto.
  - rewrite fr_inodes1, fr_inodes0; auto.
  - eapply incl_tran; eauto.
Qed.
Lemma frame_io fd u w : frame fd u w (set_io w (tl (w_io w))).
Proof. constructor; auto. exact (incl_tl_refl (w_io w)). Qed.
Lemma frame_fd fd u w o : frame fd u w (upd_fd w fd o).
Proof.
  constructor; auto using incl_refl. intros. cbn [upd_fd w_fds set_fds].
  apply upd_other. apply Z.eqb_neq. congruence.
Qed.
Lemma frame_ino fd u w i : frame fd u w (upd_ino w u i).
Proof.
  constructor; auto using incl_refl. intros. cbn [upd_ino w_inodes set_inodes].
  apply upd_other, uid_eqb_neq. congruence.
Qed.
#[export] Hint Resolve frame_refl frame_io frame_fd frame_ino : frame.

(** Liveness after an update of position / content. *)
Lemma live_io f w o i : live f w o i -> live f (set_io w (tl (w_io w))) o i.
Proof. intros []; constructor; auto. Qed.
Lemma live_pos f w o i p : live f w o i -> 0 <= p -> live f (upd_fd w (fd_of f) (Some (set_pos o p))) (set_pos o p) i.
Proof.
  intros [] Hp; constructor; auto. cbn. apply upd_same, Z.eqb_refl.
Qed.
Lemma live_data f w o i i' : live f w o i -> n_kind i' = KReg -> live f (upd_ino w (o_uid o) i') o i'.
Proof.
  intros [] Hk; constructor; auto. cbn. apply upd_same, uid_eqb_refl.
Qed.

Lemma get_fd_live f w o i : live f w o i -> get_fd (fd_of f) w = (Ok (o, i), w).
Proof. intros []. unfold get_fd. now rewrite lv_fd0, lv_ino0. Qed.

Lemma check_closed_live f w o i : live f w o i -> check_closed f w = (Ok tt, w).
Proof. intros []. unfold check_closed. now rewrite lv_open0. Qed.
Lemma check_seekable_live f w o i : live f w o i -> check_seekable f w = (Ok tt, w).
Proof. intros L. unfold check_seekable, bind. rewrite (check_closed_live _ _ _ _ L). now rewrite (lv_seek _ _ _ _ L). Qed.
Lemma check_readable_live f w o i : live f w o i ->
  check_readable f w = if f_readable f then (Ok tt, w) else (Err EUnsupported, w).
Proof. intros L. unfold check_readable, bind. rewrite (check_closed_live _ _ _ _ L). now destruct (f_readable f). Qed.
Lemma check_writable_live f w o i : live f w o i ->
  check_writable f w = if f_writable f then (Ok tt, w) else (Err EUnsupported, w).
Proof. intros L. unfold check_writable, bind. rewrite (check_closed_live _ _ _ _ L). now destruct (f_writable f). Qed.

Lemma inner_size_live f w o i : live f w o i -> inner_size f w = (Ok (len (n_data i)), w).
Proof. intros L. unfold inner_size, sys_fstat, bind. rewrite (get_fd_live _ _ _ _ L). reflexivity. Qed.

Definition seek_base (o : ofd) (i : inode) (whence : Z) : option Z :=
  if whence =? 0 then Some 0 else if whence =? 1 then Some (o_pos o)
  else if whence =? 2 then Some (len (n_data i)) else None.
Lemma inner_seek_live f w o i off wh : live f w o i ->
  inner_seek f off wh w =
  match seek_base o i wh with
  | None => (Err (EOS EINVAL), w)
  | Some b => if b + off <? 0 then (Err (EOS EINVAL), w)
              else (Ok (b + off), upd_fd w (fd_of f) (Some (set_pos o (b + off))))
  end.
Proof.
  intros L. unfold inner_seek, sys_lseek, bind. rewrite (get_fd_live _ _ _ _ L).
  rewrite (lv_kind _ _ _ _ L). unfold seek_base, len.
  destruct (wh =? 0); [destruct (_ <? 0); reflexivity|].
  destruct (wh =? 1); [destruct (_ <? 0); reflexivity|].
  destruct (wh =? 2); [destruct (_ <? 0); reflexivity|]. reflexivity.
Qed.

Lemma set_pos_same o : set_pos o (o_pos o) = o.
Proof. destruct o; reflexivity. Qed.

Lemma inner_tell_live f w o i : live f w o i ->
  inner_tell f w = (Ok (o_pos o), upd_fd w (fd_of f) (Some o)).
Proof.
  intros L. change (inner_tell f w) with (inner_seek f 0 1 w). rewrite (inner_seek_live _ _ _ _ _ _ L).
  unfold seek_base. cbn. rewrite Z.add_0_r. pose proof (lv_pos _ _ _ _ L).
  destruct (Z.ltb_spec (o_pos o) 0); [lia|]. now rewrite set_pos_same.
Qed.
Lemma live_refd f w o i : live f w o i -> live f (upd_fd w (fd_of f) (Some o)) o i.
Proof. intros L. rewrite <- (set_pos_same o) at 1 2. apply live_pos; auto. apply (lv_pos _ _ _ _ L). Qed.

Lemma io_count_le e n : (io_count e n <= n)%nat.
Proof. destruct e; unfold io_count; lia. Qed.
Lemma io_count_pos e n : (0 < n)%nat -> (0 < io_count e n)%nat.
Proof. destruct e; unfold io_count; lia. Qed.

(** What a read(2) of this stream does. *)
Definition read_data (o : ofd) (i : inode) (e : ioev) (n : Z) : list Z :=
  firstn (io_count e (Z.to_nat n)) (skipn (Z.to_nat (o_pos o)) (n_data i)).
Lemma sys_read_live f w o i n : live f w o i -> 0 <= n -> o_rd o = true ->
  sys_read (fd_of f) n w =
  match hd IoFull (w_io w) with
  | IoErr x => (Err (EOS x), set_io w (tl (w_io w)))
  | e => (Ok (read_data o i e n),
          upd_fd (set_io w (tl (w_io w))) (fd_of f)
                 (Some (set_pos o (o_pos o + len (read_data o i e n)))))
  end.
Proof.
  intros L Hn Hr. unfold sys_read, bind. rewrite (get_fd_live _ _ _ _ L).
  rewrite Hr. cbn [negb]. rewrite (lv_kind _ _ _ _ L).
  destruct (Z.ltb_spec n 0); [lia|]. rewrite next_io_eq.
  destruct (hd IoFull (w_io w)); reflexivity.
Qed.
Lemma sys_read_norights f w o i n : live f w o i -> o_rd o = false ->
  sys_read (fd_of f) n w = (Err (EOS EBADF), w).
Proof. intros L Hr. unfold sys_read, bind. rewrite (get_fd_live _ _ _ _ L). now rewrite Hr. Qed.

Lemma read_data_props o i e n : 0 <= n -> 0 <= o_pos o ->
  let d := read_data o i e n in
  len d <= n /\ slice_at (n_data i) (o_pos o) d /\ (d = [] -> n = 0 \/ len (n_data i) <= o_pos o).
Proof.
  intros Hn Hp d. unfold d, read_data. split; [|split].
  - rewrite len_firstn. pose proof (io_count_le e (Z.to_nat n)). lia.
  - pose proof (firstn_skipn_slice (n_data i) (Z.to_nat (o_pos o)) (io_count e (Z.to_nat n))) as S.
    now rewrite Z2Nat.id in S by lia.
  - intros E. destruct (Z.eq_dec n 0); auto. right.
    assert (len (firstn (io_count e (Z.to_nat n)) (skipn (Z.to_nat (o_pos o)) (n_data i))) = 0) by now rewrite E.
    rewrite len_firstn, len_skipn in H.
    pose proof (io_count_pos e (Z.to_nat n) ltac:(lia)). lia.
Qed.

(** What a write(2) of this stream does. *)
Definition write_pos (o : ofd) (i : inode) : Z := if o_app o then len (n_data i) else o_pos o.
Definition write_bytes (e : ioev) (b : list Z) : list Z := firstn (io_count e (length b)) b.
Definition write_ino (o : ofd) (i : inode) (c : list Z) : inode :=
  mkIno KReg (write_at (n_data i) (Z.to_nat (write_pos o i)) c)
        (n_dirty i || (negb (o_sync o) && negb (is_nil c))).
Lemma sys_write_live f w o i b : live f w o i -> o_wr o = true ->
  sys_write (fd_of f) b w =
  match hd IoFull (w_io w) with
  | IoErr x => (Err (EOS x), set_io w (tl (w_io w)))
  | e => (Ok (len (write_bytes e b)),
          upd_fd (upd_ino (set_io w (tl (w_io w))) (o_uid o) (write_ino o i (write_bytes e b)))
                 (fd_of f) (Some (set_pos o (write_pos o i + len (write_bytes e b)))))
  end.
Proof.
  intros L Hr. unfold sys_write, bind. rewrite (get_fd_live _ _ _ _ L).
  rewrite Hr. cbn [negb]. rewrite next_io_eq. unfold write_ino, write_pos.
  destruct (hd IoFull (w_io w)); auto; rewrite (lv_kind _ _ _ _ L); reflexivity.
Qed.
Lemma sys_write_norights f w o i b : live f w o i -> o_wr o = false ->
  sys_write (fd_of f) b w = (Err (EOS EBADF), w).
Proof. intros L Hr. unfold sys_write, bind. rewrite (get_fd_live _ _ _ _ L). now rewrite Hr. Qed.
Lemma write_pos_nonneg f w o i : live f w o i -> 0 <= write_pos o i.
Proof. intros L. unfold write_pos. destruct (o_app o); [apply len_nonneg|apply (lv_pos _ _ _ _ L)]. Qed.

Lemma sys_ftruncate_live f w o i s : live f w o i -> 0 <= s ->
  sys_ftruncate (fd_of f) s w =
  if negb (o_wr o) then (Err (EOS EINVAL), w)
  else match hd IoFull (w_io w) with
  | IoErr x => (Err (EOS x), set_io w (tl (w_io w)))
  | _ => (Ok tt, upd_ino (set_io w (tl (w_io w))) (o_uid o) (mkIno KReg (set_size (n_data i) (Z.to_nat s)) true))
  end.
Proof.
  intros L Hs. unfold sys_ftruncate, bind. rewrite (get_fd_live _ _ _ _ L).
  destruct (Z.ltb_spec s 0); [lia|]. rewrite orb_false_r. destruct (negb (o_wr o)); auto.
  rewrite (lv_kind _ _ _ _ L). rewrite next_io_eq.
  destruct (hd IoFull (w_io w)); reflexivity.
Qed.

(** The model run on an operation of S_Raw. *)
Definition lift_bytes (r : res (option (list Z)) * world) : rout * world :=
  match r with
  | (Ok (Some d), w) => (OBytes d, w) | (Ok None, w) => (ONone, w) | (Err e, w) => (OErr e, w)
  end.
Definition lift_oint (r : res (option Z) * world) : rout * world :=
  match r with
  | (Ok (Some d), w) => (OInt d, w) | (Ok None, w) => (ONone, w) | (Err e, w) => (OErr e, w)
  end.
Definition lift_int (r : res Z * world) : rout * world :=
  match r with (Ok d, w) => (OInt d, w) | (Err e, w) => (OErr e, w) end.
Definition run_rop (f : rawio) (op : rop) (w : world) : rout * world :=
  match op with
  | RRead n => lift_bytes (raw_read f (Some n) w)
  | RReadInto n => match raw_readinto f n w with (Ok d, w') => (OBytes d, w') | (Err e, w') => (OErr e, w') end
  | RWrite b => lift_oint (raw_write f b w)
  | RSeek off wh => lift_int (raw_seek f off wh w)
  | RTell => lift_int (raw_tell f w)
  | RSize => lift_int (raw_size f w)
  | RFlush => match raw_flush f w with (Ok _, w') => (OUnit, w') | (Err e, w') => (OErr e, w') end
  | RTruncate s => lift_int (raw_truncate f s w)
  end.
Fixpoint run_rops (f : rawio) (ops : list rop) (w : world) : list rout * world :=
  match ops with
  | [] => ([], w)
  | op :: r => let '(o, w1) := run_rop f op w in let '(os, w2) := run_rops f r w1 in (o :: os, w2)
  end.

(** Buffers have non-negative lengths. *)
Definition wf_op (op : rop) : Prop := match op with RReadInto n => 0 <= n | _ => True end.

Definition acc_of (f : rawio) (o : ofd) : acc := mkAcc (f_readable f) (f_writable f) (o_app o).

(** Either failures are allowed, or none is scheduled and the descriptor has
    the rights the stream believes it has. *)
Definition tame (faults : Prop) (f : rawio) (w : world) (o : ofd) : Prop :=
  faults \/ ((forall e, ~ In (IoErr e) (w_io w)) /\ (f_readable f = true -> o_rd o = true)
             /\ (f_writable f = true -> o_wr o = true)).

(** The part of [tame] that matters for reading. *)
Definition tame_rd (faults : Prop) (f : rawio) (w : world) (o : ofd) : Prop :=
  faults \/ ((forall e, ~ In (IoErr e) (w_io w)) /\ (f_readable f = true -> o_rd o = true)).
Lemma tame_tame_rd faults f w o : tame faults f w o -> tame_rd faults f w o.
Proof. intros [F | (A & B & _)]; [now left|right; auto]. Qed.
#[export] Hint Resolve tame_tame_rd : core.
Lemma tame_rd_io faults f w o w' o' : tame_rd faults f w o -> incl (w_io w') (w_io w) ->
  o_rd o' = o_rd o -> tame_rd faults f w' o'.
Proof.
  intros [F | (A & B)] I R; [now left|right]. rewrite R. split; auto.
  intros e H. apply (A e), I, H.
Qed.

Lemma tame_io faults f w o w' o' : tame faults f w o -> incl (w_io w') (w_io w) ->
  o_rd o' = o_rd o -> o_wr o' = o_wr o -> tame faults f w' o'.
Proof.
  intros [F | (A & B & C)] I R W; [now left|right]. rewrite R, W. repeat split; auto.
  intros e H. apply (A e), I, H.
Qed.

Lemma hd_in w e : hd IoFull (w_io w) = IoErr e -> In (IoErr e) (w_io w).
Proof. destruct (w_io w); cbn; [discriminate|]. intros ->. now left. Qed.
Lemma tame_err faults f w o e : tame faults f w o -> hd IoFull (w_io w) = IoErr e -> faults.
Proof. intros [F | (A & _)] H; auto. apply hd_in in H. exfalso; eapply A; eauto. Qed.

Lemma tame_rd_err faults f w o e : tame_rd faults f w o -> hd IoFull (w_io w) = IoErr e -> faults.
Proof. intros [F | (A & _)] H; auto. apply hd_in in H. exfalso; eapply A; eauto. Qed.

(** No EPIPE is scheduled (a regular file never gives one). *)
Definition no_epipe (w : world) : Prop := ~ In (IoErr EPIPE) (w_io w).

(** The conclusion about one call. *)
Definition step_ok (faults : Prop) (f : rawio) (w : world) (o : ofd) (i : inode) (op : rop)
    (out : rout) (w' : world) : Prop :=
  exists o' i', live f w' o' i' /\ o_uid o' = o_uid o /\ o_rd o' = o_rd o /\ o_wr o' = o_wr o
    /\ o_app o' = o_app o /\ o_sync o' = o_sync o
    /\ frame (fd_of f) (o_uid o) w w'
    /\ astep faults (acc_of f o) (n_data i, o_pos o) op out (n_data i', o_pos o').

Ltac keep o i := exists o, i; split; [|split; [auto|split; [auto|split; [auto|split; [auto|split; [auto|split]]]]]].

Lemma inner_read_cases faults f w o i n : live f w o i -> 0 <= n -> no_epipe w -> tame_rd faults f w o ->
  f_readable f = true ->
  exists r w', inner_read f n w = (r, w') /\
  ( (exists e, r = Ok (Some (read_data o i e n)) /\
       w' = upd_fd (set_io w (tl (w_io w))) (fd_of f) (Some (set_pos o (o_pos o + len (read_data o i e n)))))
  \/ (faults /\ (r = Ok None \/ exists e, r = Err (EOS e)) /\ (w' = w \/ w' = set_io w (tl (w_io w))))).
Proof.
  intros L Hn Hp T Hr. unfold inner_read.
  destruct (o_rd o) eqn:Rd.
  - rewrite (sys_read_live _ _ _ _ _ L Hn Rd).
    destruct (hd IoFull (w_io w)) as [|k|x] eqn:E.
    + eexists _, _; split; [reflexivity|]. left. exists IoFull. auto.
    + eexists _, _; split; [reflexivity|]. left. exists (IoShort k). auto.
    + pose proof (tame_rd_err _ _ _ _ _ T E) as F.
      destruct (Z.eqb_spec x EAGAIN).
      * eexists _, _; split; [reflexivity|]. right. auto.
      * destruct (Z.eqb_spec x EPIPE).
        { subst. exfalso. apply Hp. now apply hd_in. }
        eexists _, _; split; [reflexivity|]. right. split; auto. split; eauto.
  - rewrite (sys_read_norights _ _ _ _ _ L Rd). cbn.
    eexists _, _; split; [reflexivity|]. right. split.
    + destruct T as [F | (_ & B)]; auto. rewrite B in Rd; auto; discriminate.
    + eauto.
Qed.

Lemma read_small faults f w o i n : live f w o i -> 0 <= n -> no_epipe w -> tame faults f w o ->
  forall out w', lift_bytes (raw_read f (Some n) w) = (out, w') -> step_ok faults f w o i (RRead n) out w'.
Proof.
  intros L Hn Hp T out w'. unfold raw_read, bind.
  rewrite (check_closed_live _ _ _ _ L), (check_readable_live _ _ _ _ L).
  destruct (f_readable f) eqn:R.
  - destruct (Z.ltb_spec n 0); [lia|].
    destruct (inner_read_cases faults f w o i n L Hn Hp (tame_tame_rd _ _ _ _ T) R) as (r & w1 & -> & [(e & -> & ->) | (F & Hr & Hw)]).
    + cbn [lift_bytes]. intros H0; inversion H0; subst; clear H0.
      destruct (read_data_props o i e n Hn (lv_pos _ _ _ _ L)) as (A & B & C).
      keep (set_pos o (o_pos o + len (read_data o i e n))) i.
      * apply live_pos; [now apply live_io|]. pose proof (lv_pos _ _ _ _ L). pose proof (len_nonneg (read_data o i e n)). lia.
      * eapply frame_trans; [apply frame_io|auto with frame].
      * cbn. apply AS_read; auto.
    + intros H0. assert (Hw' : frame (fd_of f) (o_uid o) w w1 /\ live f w1 o i).
      { destruct Hw as [-> | ->]; split; auto with frame. now apply live_io. }
      destruct Hw' as (Fr & L'). destruct Hr as [-> | (e & ->)]; cbn in H0; inversion H0; subst.
      * keep o i; auto. apply AS_block; auto. left; eauto.
      * keep o i; auto. apply AS_fail; auto; [eexists; eauto|]. intros ? E; inversion E; subst; lia.
  - cbn. intros H0; inversion H0; subst. keep o i; auto with frame. apply AS_unreadable; eauto.
Qed.

Lemma readinto_step faults f w o i n : live f w o i -> 0 <= n -> no_epipe w -> tame faults f w o ->
  forall out w', run_rop f (RReadInto n) w = (out, w') -> step_ok faults f w o i (RReadInto n) out w'.
Proof.
  intros L Hn Hp T out w'. cbn [run_rop]. unfold raw_readinto, bind.
  rewrite (check_closed_live _ _ _ _ L), (check_readable_live _ _ _ _ L).
  destruct (f_readable f) eqn:R.
  - destruct (inner_read_cases faults f w o i n L Hn Hp (tame_tame_rd _ _ _ _ T) R) as (r & w1 & -> & [(e & -> & ->) | (F & Hr & Hw)]).
    + cbn [ret]. intros H0; inversion H0; subst; clear H0.
      destruct (read_data_props o i e n Hn (lv_pos _ _ _ _ L)) as (A & B & C).
      keep (set_pos o (o_pos o + len (read_data o i e n))) i.
      * apply live_pos; [now apply live_io|]. pose proof (lv_pos _ _ _ _ L). pose proof (len_nonneg (read_data o i e n)). lia.
      * eapply frame_trans; [apply frame_io|auto with frame].
      * cbn. apply AS_readinto; auto.
    + intros H0. assert (Hw' : frame (fd_of f) (o_uid o) w w1 /\ live f w1 o i).
      { destruct Hw as [-> | ->]; split; auto with frame. now apply live_io. }
      destruct Hw' as (Fr & L'). destruct Hr as [-> | (e & ->)]; cbn in H0; inversion H0; subst.
      * keep o i; auto. now apply AS_block_into.
      * keep o i; auto. apply AS_fail; auto; [eexists; eauto|]. intros ? E; inversion E.
  - cbn. intros H0; inversion H0; subst. keep o i; auto with frame. apply AS_unreadable; eauto.
Qed.

(** * readall *)

Definition remaining (o : ofd) (i : inode) : nat := length (skipn (Z.to_nat (o_pos o)) (n_data i)).

Definition some_bytes (d : list Z) : option (list Z) := match d with [] => None | _ => Some d end.

(** Result of the loop, starting with [acc] already collected. *)
Lemma readall_loop_ok faults f : forall k w o i acc, live f w o i -> no_epipe w -> tame_rd faults f w o ->
  f_readable f = true -> (remaining o i < k)%nat ->
  exists r w' o', readall_loop k f acc w = (r, w') /\ live f w' o' i /\ o_uid o' = o_uid o
    /\ o_rd o' = o_rd o /\ o_wr o' = o_wr o /\ o_app o' = o_app o /\ o_sync o' = o_sync o
    /\ frame (fd_of f) (o_uid o) w w'
    /\ ( (r = Ok (Some (acc ++ skipn (Z.to_nat (o_pos o)) (n_data i)))
          /\ o_pos o' = o_pos o + Z.of_nat (remaining o i))
       \/ (faults /\ exists d, slice_at (n_data i) (o_pos o) d /\ o_pos o' = o_pos o + len d
            /\ ((exists e, r = Err (EOS e))
                \/ (r = Ok (some_bytes (acc ++ d)))))).
Proof.
  induction k as [|k IH]; intros w o i acc L Hp T R Hk; [lia|].
  cbn [readall_loop]. unfold bind, raw_read_n.
  unfold bind. rewrite (check_closed_live _ _ _ _ L), (check_readable_live _ _ _ _ L), R.
  destruct (inner_read_cases faults f w o i DEFAULT_BUFFER_SIZE L ltac:(unfold DEFAULT_BUFFER_SIZE; lia) Hp T R)
    as (r & w1 & -> & [(e & -> & ->) | (F & Hr & Hw)]).
  - destruct (read_data_props o i e DEFAULT_BUFFER_SIZE ltac:(unfold DEFAULT_BUFFER_SIZE; lia) (lv_pos _ _ _ _ L)) as (A & B & C).
    set (d := read_data o i e DEFAULT_BUFFER_SIZE) in *.
    set (o1 := set_pos o (o_pos o + len d)).
    set (w1 := upd_fd (set_io w (tl (w_io w))) (fd_of f) (Some o1)).
    pose proof (lv_pos _ _ _ _ L) as P0. pose proof (len_nonneg d) as P1.
    assert (L1 : live f w1 o1 i) by (apply live_pos; [now apply live_io|lia]).
    assert (Fr : frame (fd_of f) (o_uid o) w w1) by (eapply frame_trans; [apply frame_io|apply frame_fd]).
    clearbody d.
    destruct d as [|x d'].
    + (* end of file *)
      destruct C as [C|C]; auto; [discriminate|].
      eexists _, w1, o1. split; [unfold ret; reflexivity|]. split; [auto|].
      split; [auto|]. split; [auto|]. split; [auto|]. split; [auto|]. split; [auto|]. split; [auto|]. left.
      assert (E0 : skipn (Z.to_nat (o_pos o)) (n_data i) = []) by (apply len_zero; rewrite len_skipn; lia).
      unfold remaining. rewrite E0, app_nil_r. split; [|unfold o1; cbn; reflexivity].
      destruct acc; reflexivity.
    + remember (x :: d') as d eqn:Ed.
      assert (Hd : d = firstn (length d) (skipn (Z.to_nat (o_pos o)) (n_data i))) by now apply slice_at_eq.
      assert (Hdl : (0 < length d)%nat) by (rewrite Ed; cbn [length]; lia).
      assert (Ebr : skipn (Z.to_nat (o_pos o1)) (n_data i) = skipn (length d) (skipn (Z.to_nat (o_pos o)) (n_data i))).
      { rewrite skipn_skipn. unfold o1; cbn. f_equal. unfold len. lia. }
      assert (Hle : (length d <= remaining o i)%nat).
      { unfold remaining. rewrite Hd. rewrite firstn_length. lia. }
      assert (Hrem : remaining o1 i = (remaining o i - length d)%nat).
      { unfold remaining at 1. rewrite Ebr, skipn_length. reflexivity. }
      assert (T1 : tame_rd faults f w1 o1).
      { eapply tame_rd_io; eauto. apply (fr_io _ _ _ _ Fr). }
      assert (Hp1 : no_epipe w1) by (intros X; apply Hp, (fr_io _ _ _ _ Fr), X).
      destruct (IH w1 o1 i (acc ++ d) L1 Hp1 T1 R ltac:(lia)) as (r & w2 & o2 & E2 & L2 & U2 & R2 & W2 & A2 & S2 & F2 & C2).
      rewrite Ed in E2 |- *. cbn [app] in E2 |- *. exists r, w2, o2. split; [exact E2|]. split; [auto|].
      split; [rewrite U2; auto|]. split; [rewrite R2; auto|]. split; [rewrite W2; auto|].
      split; [rewrite A2; auto|]. split; [rewrite S2; auto|].
      split; [eapply frame_trans; eauto|].
      destruct C2 as [(-> & P2) | (F & d2 & S & P2 & C2)].
      * left. split.
        -- rewrite <- app_assoc, Ebr. do 3 f_equal. rewrite Hd at 1. apply firstn_skipn.
        -- rewrite P2. unfold o1 at 1; cbn [set_pos o_pos]. unfold len. lia.
      * right. split; auto. exists (d ++ d2). split.
        -- apply slice_app; auto.
        -- split; [rewrite P2, len_app; unfold o1; cbn [set_pos o_pos]; lia|].
           rewrite app_assoc. auto.
  - assert (Hw' : frame (fd_of f) (o_uid o) w w1 /\ live f w1 o i).
    { destruct Hw as [-> | ->]; split; auto with frame. now apply live_io. }
    destruct Hw' as (Fr & L').
    assert (Snil : slice_at (n_data i) (o_pos o) []).
    { split; [now left|]. intros j Hj. unfold len in Hj; cbn in Hj; lia. }
    destruct Hr as [-> | (e & ->)].
    + eexists _, w1, o. split; [unfold ret; reflexivity|]. do 7 (split; [auto|]). right. split; auto.
      exists []. split; auto. split; [rewrite len_nil; lia|]. right. rewrite app_nil_r. destruct acc; auto.
    + eexists _, w1, o. split; [reflexivity|]. do 7 (split; [auto|]). right. split; auto.
      exists []. split; auto. split; [rewrite len_nil; lia|]. left; eauto.
Qed.

Lemma raw_readall_ok faults f w o i : live f w o i -> no_epipe w -> tame_rd faults f w o ->
  f_readable f = true ->
  exists r w' o', raw_readall f w = (r, w') /\ live f w' o' i /\ o_uid o' = o_uid o
    /\ o_rd o' = o_rd o /\ o_wr o' = o_wr o /\ o_app o' = o_app o /\ o_sync o' = o_sync o
    /\ frame (fd_of f) (o_uid o) w w'
    /\ ( (r = Ok (Some (skipn (Z.to_nat (o_pos o)) (n_data i)))
          /\ o_pos o' = o_pos o + Z.of_nat (remaining o i))
       \/ (faults /\ exists d, slice_at (n_data i) (o_pos o) d /\ o_pos o' = o_pos o + len d
            /\ ((exists e, r = Err (EOS e))
                \/ (r = Ok (some_bytes d))))).
Proof.
  intros L Hp T R. unfold raw_readall, readall_fuel, bind.
  rewrite (lv_fd _ _ _ _ L), (lv_ino _ _ _ _ L).
  apply (readall_loop_ok faults f (S (length (n_data i))) w o i []); auto.
  unfold remaining. rewrite skipn_length. lia.
Qed.

Lemma readall_step faults f w o i n : live f w o i -> n < 0 -> no_epipe w -> tame faults f w o ->
  forall out w', lift_bytes (raw_read f (Some n) w) = (out, w') -> step_ok faults f w o i (RRead n) out w'.
Proof.
  intros L Hn Hp T out w'. unfold raw_read, bind.
  rewrite (check_closed_live _ _ _ _ L), (check_readable_live _ _ _ _ L).
  destruct (f_readable f) eqn:R.
  - destruct (Z.ltb_spec n 0); [|lia].
    destruct (raw_readall_ok faults f w o i L Hp (tame_tame_rd _ _ _ _ T) R) as (r & w1 & o1 & -> & L1 & U1 & R1 & W1 & A1 & S1 & F1 & C1).
    intros H0.
    pose proof (lv_pos _ _ _ _ L) as P0.
    destruct C1 as [(-> & P1) | (F & d & S & P1 & [(e & ->) | ->])].
    + cbn in H0; inversion H0; subst. keep o1 i; auto. rewrite P1.
      replace (Z.of_nat (remaining o i)) with (len (skipn (Z.to_nat (o_pos o)) (n_data i))) by reflexivity.
      apply AS_readall; auto. now apply rest_from_skipn.
    + cbn in H0; inversion H0; subst. keep o1 i; auto. apply AS_fail_all; auto; [eexists; eauto|].
      rewrite P1. pose proof (len_nonneg d). destruct S as ([-> | S] & _); [rewrite len_nil; lia|lia].
    + destruct d as [|x d].
      * cbn in H0; inversion H0; subst. keep o1 i; auto. rewrite P1, len_nil, Z.add_0_r. apply AS_block; eauto.
      * cbn in H0; inversion H0; subst. keep o1 i; auto. rewrite P1. apply AS_block_all; auto.
  - cbn. intros H0; inversion H0; subst. keep o i; auto with frame. apply AS_unreadable; eauto.
Qed.

(** * Writing *)

Lemma raw_write_live f w o i b : live f w o i -> f_writable f = true -> o_wr o = true ->
  raw_write f b w =
  match hd IoFull (w_io w) with
  | IoErr x => (if x =? EAGAIN then Ok None else Err (EOS x), set_io w (tl (w_io w)))
  | e => (Ok (Some (len (write_bytes e b))),
          upd_fd (upd_ino (set_io w (tl (w_io w))) (o_uid o) (write_ino o i (write_bytes e b)))
                 (fd_of f) (Some (set_pos o (write_pos o i + len (write_bytes e b)))))
  end.
Proof.
  intros L Hf Hr. unfold raw_write, inner_write, bind.
  rewrite (check_closed_live _ _ _ _ L), (check_writable_live _ _ _ _ L), Hf.
  rewrite (sys_write_live _ _ _ _ _ L Hr).
  assert (A : forall e, (negb (is_nil b) && (len (write_bytes e b) =? 0)) = false).
  { intros e. destruct b as [|x b]; auto. cbn [is_nil negb andb]. apply Z.eqb_neq.
    unfold write_bytes. rewrite len_firstn. pose proof (io_count_pos e (length (x :: b)) ltac:(cbn [length]; lia)).
    rewrite len_cons. pose proof (len_nonneg b). lia. }
  assert (B : forall e, ((len (write_bytes e b) <? 0) || (Z.of_nat (length b) <? len (write_bytes e b))) = false).
  { intros e. apply orb_false_iff; split; apply Z.ltb_ge.
    - apply len_nonneg.
    - unfold write_bytes. rewrite len_firstn. unfold len; lia. }
  destruct (hd IoFull (w_io w)) as [|k|x].
  - cbv zeta iota beta. rewrite A, B. reflexivity.
  - cbv zeta iota beta. rewrite A, B. reflexivity.
  - now destruct (x =? EAGAIN).
Qed.

Lemma write_bytes_len e b : len (write_bytes e b) <= len b.
Proof. unfold write_bytes. rewrite len_firstn. lia. Qed.
Lemma write_bytes_pos e b : b <> [] -> 0 < len (write_bytes e b).
Proof.
  intros H. unfold write_bytes. rewrite len_firstn. destruct b as [|x b]; [congruence|].
  pose proof (io_count_pos e (length (x :: b)) ltac:(cbn [length]; lia)). rewrite len_cons. pose proof (len_nonneg b). lia.
Qed.
Lemma write_bytes_prefix e b : write_bytes e b = firstn (Z.to_nat (len (write_bytes e b))) b.
Proof.
  unfold write_bytes at 2. rewrite len_firstn. pose proof (io_count_le e (length b)).
  replace (Z.to_nat (Z.min (Z.of_nat (io_count e (length b))) (len b))) with (io_count e (length b)).
  - reflexivity.
  - unfold len. lia.
Qed.

Lemma write_step faults f w o i b : live f w o i -> tame faults f w o ->
  forall out w', run_rop f (RWrite b) w = (out, w') -> step_ok faults f w o i (RWrite b) out w'.
Proof.
  intros L T out w'. cbn [run_rop].
  destruct (f_writable f) eqn:Wf.
  - destruct (o_wr o) eqn:Wo.
    + rewrite (raw_write_live _ _ _ _ b L Wf Wo).
      assert (Ok_case : forall e,
         step_ok faults f w o i (RWrite b) (OInt (len (write_bytes e b)))
          (upd_fd (upd_ino (set_io w (tl (w_io w))) (o_uid o) (write_ino o i (write_bytes e b)))
                 (fd_of f) (Some (set_pos o (write_pos o i + len (write_bytes e b)))))).
      { intros e.
        pose proof (write_pos_nonneg _ _ _ _ L) as P0. pose proof (len_nonneg (write_bytes e b)) as P1.
        keep (set_pos o (write_pos o i + len (write_bytes e b))) (write_ino o i (write_bytes e b)).
        - apply live_pos; [|lia]. apply (live_data f _ o i); [now apply live_io|reflexivity].
        - eapply frame_trans; [apply frame_io|]. eapply frame_trans; [apply frame_ino|apply frame_fd].
        - cbn [o_pos set_pos n_data write_ino]. apply AS_write.
          + exact Wf.
          + split; [lia|apply write_bytes_len].
          + intros Hb. now apply write_bytes_pos.
          + reflexivity.
          + rewrite <- write_bytes_prefix. unfold acc_of; cbn [a_app].
            change (if o_app o then len (n_data i) else o_pos o) with (write_pos o i).
            pose proof (write_at_stored (n_data i) (Z.to_nat (write_pos o i)) (write_bytes e b)) as S.
            rewrite Z2Nat.id in S by lia. exact S. }
      destruct (hd IoFull (w_io w)) as [|k|x] eqn:E.
      * cbn [lift_oint]. intros H; inversion H; subst. apply Ok_case.
      * cbn [lift_oint]. intros H; inversion H; subst. apply Ok_case.
      * pose proof (tame_err _ _ _ _ _ T E) as F.
        destruct (x =? EAGAIN); cbn [lift_oint]; intros H; inversion H; subst.
        -- keep o i; auto with frame. { now apply live_io. } apply AS_block; eauto.
        -- keep o i; auto with frame. { now apply live_io. } apply AS_fail; auto; [eexists; eauto|]. intros ? X; inversion X.
    + unfold raw_write, inner_write, bind.
      rewrite (check_closed_live _ _ _ _ L), (check_writable_live _ _ _ _ L), Wf.
      rewrite (sys_write_norights _ _ _ _ _ L Wo). cbn. intros H; inversion H; subst.
      keep o i; auto with frame. apply AS_fail; auto; [|eexists; eauto|intros ? X; inversion X].
      destruct T as [F | (_ & _ & C)]; auto. rewrite C in Wo; auto; discriminate.
  - unfold raw_write, bind.
    rewrite (check_closed_live _ _ _ _ L), (check_writable_live _ _ _ _ L), Wf.
    cbn. intros H; inversion H; subst. keep o i; auto with frame. apply AS_unwritable; eauto.
Qed.

(** * Truncation *)

Lemma raw_size_live f w o i : live f w o i -> raw_size f w = (Ok (len (n_data i)), w).
Proof. intros L. unfold raw_size, bind. rewrite (check_closed_live _ _ _ _ L). now apply (inner_size_live _ _ o). Qed.
Lemma raw_tell_live f w o i : live f w o i -> raw_tell f w = (Ok (o_pos o), upd_fd w (fd_of f) (Some o)).
Proof. intros L. unfold raw_tell, bind. rewrite (check_closed_live _ _ _ _ L). now apply (inner_tell_live _ _ o i). Qed.

Lemma set_size_same c : set_size c (length c) = c.
Proof.
  apply (resized_fun c (len c)); [|apply resized_same].
  pose proof (set_size_resized c (len c) (len_nonneg c)) as R. unfold len in R at 2. now rewrite Nat2Z.id in R.
Qed.

(** truncate to [s >= 0] on a stream whose position query has been done. *)
Definition truncate_body (f : rawio) (sz : Z) : M Z :=
  cur <- raw_size f ;;
  (if sz =? cur then ret tt
   else if sz <? cur then inner_reduce f sz
   else
     inner_extend f sz true ;;
     cur2 <- raw_size f ;;
     if cur2 =? sz then ret tt else truncate_fallback f sz cur2) ;;
  raw_size f.

Lemma truncate_body_live f w o i s : live f w o i -> 0 <= s ->
  exists r w', truncate_body f s w = (r, w') /\ frame (fd_of f) (o_uid o) w w' /\
  ( (r = Ok s /\ exists i', live f w' o i' /\ n_data i' = set_size (n_data i) (Z.to_nat s)
       /\ (s = len (n_data i) -> w' = w))
  \/ ((o_wr o = false \/ exists e, hd IoFull (w_io w) = IoErr e) /\ (exists e, r = Err (EOS e))
       /\ live f w' o i)).
Proof.
  intros L Hs. unfold truncate_body, bind. rewrite (raw_size_live _ _ _ _ L).
  pose proof (len_nonneg (n_data i)) as Ln.
  destruct (Z.eqb_spec s (len (n_data i))) as [E|NE].
  - cbn [ret]. rewrite (raw_size_live _ _ _ _ L). eexists _, w; split; [reflexivity|]. split; auto with frame.
    left. split; [congruence|]. exists i. repeat split; auto; try apply L. rewrite E. unfold len.
    now rewrite Nat2Z.id, set_size_same.
  - set (i1 := mkIno KReg (set_size (n_data i) (Z.to_nat s)) true).
    set (w1 := upd_ino (set_io w (tl (w_io w))) (o_uid o) i1).
    assert (L1 : live f w1 o i1) by (apply (live_data f _ o i); [now apply live_io|reflexivity]).
    assert (F1 : frame (fd_of f) (o_uid o) w w1) by (eapply frame_trans; [apply frame_io|apply frame_ino]).
    assert (S1 : len (n_data i1) = s) by (cbn; apply (set_size_resized (n_data i) s Hs)).
    assert (Hf : sys_ftruncate (fd_of f) s w = (if negb (o_wr o) then (Err (EOS EINVAL), w)
       else match hd IoFull (w_io w) with
       | IoErr x => (Err (EOS x), set_io w (tl (w_io w)))
       | _ => (Ok tt, w1) end)) by now apply sys_ftruncate_live.
    destruct (Z.ltb_spec s (len (n_data i))).
    + unfold inner_reduce. destruct (Z.ltb_spec s 0); [lia|]. rewrite Hf.
      destruct (o_wr o) eqn:Wo; cbn [negb].
      * destruct (hd IoFull (w_io w)) as [|k|x] eqn:E.
        -- rewrite (raw_size_live _ _ _ _ L1), S1. eexists _, w1; split; [reflexivity|]. split; auto.
           left. split; auto. exists i1. split; auto. split; auto. lia.
        -- rewrite (raw_size_live _ _ _ _ L1), S1. eexists _, w1; split; [reflexivity|]. split; auto.
           left. split; auto. exists i1. split; auto. split; auto. lia.
        -- eexists _, _; split; [reflexivity|]. split; auto with frame. right. split; eauto. split; eauto. now apply live_io.
      * eexists _, _; split; [reflexivity|]. split; auto with frame. right. eauto.
    + unfold inner_extend. destruct (Z.ltb_spec s 0); [lia|]. rewrite Hf.
      destruct (o_wr o) eqn:Wo; cbn [negb].
      * destruct (hd IoFull (w_io w)) as [|k|x] eqn:E.
        -- rewrite (raw_size_live _ _ _ _ L1), S1, Z.eqb_refl. cbn [ret]. rewrite (raw_size_live _ _ _ _ L1), S1.
           eexists _, w1; split; [reflexivity|]. split; auto.
           left. split; auto. exists i1. split; auto. split; auto. lia.
        -- rewrite (raw_size_live _ _ _ _ L1), S1, Z.eqb_refl. cbn [ret]. rewrite (raw_size_live _ _ _ _ L1), S1.
           eexists _, w1; split; [reflexivity|]. split; auto.
           left. split; auto. exists i1. split; auto. split; auto. lia.
        -- eexists _, _; split; [reflexivity|]. split; auto with frame. right. split; eauto. split; eauto. now apply live_io.
      * eexists _, _; split; [reflexivity|]. split; auto with frame. right. eauto.
Qed.

Lemma raw_truncate_eq f w o i s : live f w o i -> f_writable f = true ->
  raw_truncate f s w =
  match s with
  | None => truncate_body f (o_pos o) (upd_fd w (fd_of f) (Some o))
  | Some x => if x <? 0 then (Err (EOS EINVAL), w) else truncate_body f x w
  end.
Proof.
  intros L Wf. unfold raw_truncate, bind at 1. rewrite (check_seekable_live _ _ _ _ L).
  unfold bind at 1. rewrite (check_writable_live _ _ _ _ L), Wf. unfold bind at 1.
  destruct s as [x|].
  - destruct (x <? 0); reflexivity.
  - rewrite (raw_tell_live _ _ _ _ L). reflexivity.
Qed.

Lemma truncate_step faults f w o i s : live f w o i -> tame faults f w o ->
  forall out w', run_rop f (RTruncate s) w = (out, w') -> step_ok faults f w o i (RTruncate s) out w'.
Proof.
  intros L T out w'. cbn [run_rop].
  destruct (f_writable f) eqn:Wf.
  - rewrite (raw_truncate_eq _ _ _ _ s L Wf).
    assert (Body : forall x w1, live f w1 o i -> frame (fd_of f) (o_uid o) w w1 -> w_io w1 = w_io w ->
              x = (match s with None => o_pos o | Some y => y end) -> 0 <= x ->
              lift_int (truncate_body f x w1) = (out, w') -> step_ok faults f w o i (RTruncate s) out w').
    { intros x w1 L1 F1 IO Ex Hx. destruct (truncate_body_live f w1 o i x L1 Hx) as (r & w2 & -> & F2 & C).
      destruct C as [(-> & i' & L' & D' & _) | (Hc & (e & ->) & L')]; cbn; intros H; inversion H; subst out w'; clear H.
      - keep o i'; auto. { eapply frame_trans; eauto. }
        rewrite D'. apply (AS_trunc faults _ _ _ s x); auto. now apply set_size_resized.
      - assert (F : faults).
        { destruct Hc as [Wo | (e' & E')].
          - destruct T as [F | (_ & _ & C)]; auto. rewrite C in Wo; auto; discriminate.
          - rewrite IO in E'. eapply tame_err; eauto. }
        keep o i; auto. { eapply frame_trans; eauto. } apply AS_fail; auto; [eexists; eauto|]. intros ? X; inversion X. }
    destruct s as [x|].
    + destruct (Z.ltb_spec x 0).
      * cbn. intros H0; inversion H0; subst. keep o i; auto with frame. now apply AS_trunc_neg.
      * apply (Body x w); auto with frame.
    + apply (Body (o_pos o)); auto with frame; [now apply live_refd|apply (lv_pos _ _ _ _ L)].
  - unfold raw_truncate, bind. rewrite (check_seekable_live _ _ _ _ L), (check_writable_live _ _ _ _ L), Wf.
    cbn. intros H; inversion H; subst. keep o i; auto with frame. apply AS_unwritable; eauto.
Qed.

(** * Positions *)

Lemma seek_step faults f w o i off wh : live f w o i ->
  forall out w', run_rop f (RSeek off wh) w = (out, w') -> step_ok faults f w o i (RSeek off wh) out w'.
Proof.
  intros L out w'. cbn [run_rop]. unfold raw_seek, bind. rewrite (check_closed_live _ _ _ _ L).
  rewrite (inner_seek_live _ _ _ _ _ _ L). unfold seek_base.
  assert (Go : forall b, ((wh = 0 /\ b = 0) \/ (wh = 1 /\ b = o_pos o) \/ (wh = 2 /\ b = len (n_data i))) ->
     lift_int (if b + off <? 0 then (Err (EOS EINVAL), w)
              else (Ok (b + off), upd_fd w (fd_of f) (Some (set_pos o (b + off))))) = (out, w') ->
     step_ok faults f w o i (RSeek off wh) out w').
  { intros b Hb. destruct (Z.ltb_spec (b + off) 0); cbn; intros H0; inversion H0; subst; clear H0.
    - keep o i; auto with frame. now apply (AS_seek_neg faults _ _ _ _ _ b).
    - keep (set_pos o (b + off)) i; auto with frame; [now apply live_pos|]. cbn. now apply AS_seek. }
  destruct (Z.eqb_spec wh 0); [apply Go; auto|].
  destruct (Z.eqb_spec wh 1); [apply Go; auto|].
  destruct (Z.eqb_spec wh 2); [apply Go; auto|].
  cbn. intros H; inversion H; subst. keep o i; auto with frame. now apply AS_seek_bad.
Qed.

Lemma rop_step faults f w o i op : live f w o i -> wf_op op -> no_epipe w -> tame faults f w o ->
  forall out w', run_rop f op w = (out, w') -> step_ok faults f w o i op out w'.
Proof.
  intros L Wf Hp T out w'. destruct op as [n|n|b|off wh| | | |s].
  - destruct (Z.ltb_spec n 0); [now apply readall_step|now apply read_small].
  - now apply readinto_step.
  - now apply write_step.
  - now apply seek_step.
  - cbn [run_rop]. rewrite (raw_tell_live _ _ _ _ L). cbn. intros H; inversion H; subst.
    keep o i; auto with frame; [now apply live_refd|apply AS_tell].
  - cbn [run_rop]. rewrite (raw_size_live _ _ _ _ L). cbn. intros H; inversion H; subst.
    keep o i; auto with frame; apply AS_size.
  - cbn [run_rop]. unfold raw_flush. rewrite (check_closed_live _ _ _ _ L). intros H; inversion H; subst.
    keep o i; auto with frame; apply AS_flush.
  - now apply truncate_step.
Qed.

Theorem rops_refine faults f : forall ops w o i, live f w o i -> Forall wf_op ops -> no_epipe w -> tame faults f w o ->
  forall outs w', run_rops f ops w = (outs, w') ->
  exists o' i', live f w' o' i' /\ o_uid o' = o_uid o /\ o_rd o' = o_rd o /\ o_wr o' = o_wr o
    /\ o_app o' = o_app o /\ frame (fd_of f) (o_uid o) w w'
    /\ aruns faults (acc_of f o) (n_data i, o_pos o) ops outs (n_data i', o_pos o').
Proof.
  induction ops as [|op ops IH]; intros w o i L Wf Hp T outs w' H.
  - cbn in H. inversion H; subst. exists o, i. do 5 (split; [auto|]). split; [auto with frame|constructor].
  - cbn in H. destruct (run_rop f op w) as [o1 w1] eqn:E1. destruct (run_rops f ops w1) as [os w2] eqn:E2.
    inversion H; subst; clear H. inversion Wf; subst.
    destruct (rop_step faults f w o i op L H1 Hp T o1 w1 E1) as (o' & i' & L' & U & R & W & A & _ & F & S).
    assert (T' : tame faults f w1 o') by (eapply tame_io; eauto; apply (fr_io _ _ _ _ F)).
    assert (Hp' : no_epipe w1) by (intros X; apply Hp, (fr_io _ _ _ _ F), X).
    destruct (IH w1 o' i' L' H2 Hp' T' os w' E2) as (o2 & i2 & L2 & U2 & R2 & W2 & A2 & F2 & S2).
    exists o2, i2. split; [auto|]. split; [congruence|]. split; [congruence|]. split; [congruence|]. split; [congruence|].
    split. { eapply frame_trans; eauto. rewrite <- U. auto. }
    econstructor; eauto. replace (acc_of f o) with (acc_of f o') by (unfold acc_of; congruence). auto.
Qed.
