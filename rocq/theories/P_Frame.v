(** What the input/output operations of a raw stream never touch, whatever the
    state: everything but its own descriptor, its own file, and the outcomes consumed. *)
From Coq Require Import ZArith List Bool Lia.
From Verif Require Import M_Base M_Modes M_Registry M_Kernel M_World M_Raw P_Raw P_Registry.
Import ListNotations.
Open Scope Z_scope.

Definition same_ofd (a b : option ofd) : Prop :=
  match a, b with
  | Some x, Some y => o_uid y = o_uid x /\ o_rd y = o_rd x /\ o_wr y = o_wr x /\ o_app y = o_app x
                      /\ o_sync y = o_sync x /\ o_inh y = o_inh x
  | None, None => True
  | _, _ => False
  end.

Record rawf (fd : Z) (w w' : world) : Prop := mkRawf {
  rf_names : w_names w' = w_names w;
  rf_newfd : w_newfd w' = w_newfd w;
  rf_newino : w_newino w' = w_newino w;
  rf_kern : w_kern w' = w_kern w;
  rf_reg : w_reg w' = w_reg w;
  rf_pid : w_pid w' = w_pid w;
  rf_env : w_env w' = w_env w;
  rf_clock : w_clock w' = w_clock w;
  rf_opts : w_opts w' = w_opts w;
  rf_blk : w_blk w' = w_blk w;
  rf_io : incl (w_io w') (w_io w);
  rf_fds : forall d, d <> fd -> w_fds w' d = w_fds w d;
  rf_fd : same_ofd (w_fds w fd) (w_fds w' fd);
  rf_inodes : forall v, (forall o, w_fds w fd = Some o -> o_uid o <> v) -> w_inodes w' v = w_inodes w v;
  rf_kind : forall v, option_map n_kind (w_inodes w' v) = option_map n_kind (w_inodes w v) }.

Lemma same_ofd_refl a : same_ofd a a.
Proof. destruct a; cbn; tauto. Qed.
Lemma same_ofd_trans a b c : same_ofd a b -> same_ofd b c -> same_ofd a c.
Proof. destruct a, b, c; cbn; try tauto. intuition congruence. Qed.

Lemma rawf_refl fd w : rawf fd w w.
Proof. constructor; auto using incl_refl, same_ofd_refl. Qed.
Lemma rawf_trans fd a b c : rawf fd a b -> rawf fd b c -> rawf fd a c.
Proof.
  intros [] []. constructor; try congruence.
  - eapply incl_tran; eauto.
  - intros d Hd. rewrite rf_fds1, rf_fds0; auto.
  - eapply same_ofd_trans; eauto.
  - intros v Hv. rewrite rf_inodes1, rf_inodes0; auto.
    intros o Ho. unfold same_ofd in rf_fd0. rewrite Ho in rf_fd0.
    destruct (w_fds a fd) as [o'|] eqn:E; [|contradiction]. specialize (Hv _ eq_refl). intuition congruence.
Qed.
Lemma rawf_io fd w : rawf fd w (set_io w (tl (w_io w))).
Proof. constructor; cbn; auto using incl_tl_refl, same_ofd_refl. Qed.
Lemma rawf_pos fd w o p : w_fds w fd = Some o -> rawf fd w (upd_fd w fd (Some (set_pos o p))).
Proof.
  intros H. constructor; auto using incl_refl; cbn.
  - intros d Hd. apply upd_other, Z.eqb_neq. congruence.
  - rewrite upd_same by apply Z.eqb_refl. rewrite H. cbn. tauto.
Qed.
Lemma rawf_ino fd w o i i' : w_fds w fd = Some o -> w_inodes w (o_uid o) = Some i -> n_kind i' = n_kind i ->
  rawf fd w (upd_ino w (o_uid o) i').
Proof.
  intros H Hi Hk. constructor; auto using incl_refl, same_ofd_refl; cbn.
  - intros v Hv. apply upd_other. apply P_Raw.uid_eqb_neq. auto.
  - intros v. destruct (uid_dec (o_uid o) v) as [<-|Hv].
    + rewrite upd_same by apply P_Raw.uid_eqb_refl. rewrite Hi. cbn. congruence.
    + now rewrite upd_other by now apply P_Raw.uid_eqb_neq.
Qed.

(** A computation that stays within the frame. *)
Definition within {A} (fd : Z) (m : M A) : Prop := forall w r w', m w = (r, w') -> rawf fd w w'.

Lemma within_ret {A} fd (a : A) : within fd (ret a).
Proof. intros w r w' [= <- <-]. apply rawf_refl. Qed.
Lemma within_raise {A} fd e : within fd (raise e : M A).
Proof. intros w r w' [= <- <-]. apply rawf_refl. Qed.
Lemma within_bind {A B} fd (m : M A) (k : A -> M B) :
  within fd m -> (forall a, within fd (k a)) -> within fd (bind m k).
Proof.
  intros Hm Hk w r w'. unfold bind. destruct (m w) as [[a|e] w1] eqn:E.
  - intros H. eapply rawf_trans; [eapply Hm; eauto|eapply Hk; eauto].
  - intros [= <- <-]. eapply Hm; eauto.
Qed.

Lemma get_fd_cases fd w r w' : get_fd fd w = (r, w') ->
  w' = w /\ (r = Err (EOS EBADF) \/ exists o i, w_fds w fd = Some o /\ w_inodes w (o_uid o) = Some i /\ r = Ok (o, i)).
Proof.
  unfold get_fd. destruct (w_fds w fd) as [o|] eqn:E; [|intros [= <- <-]; auto].
  destruct (w_inodes w (o_uid o)) as [i|] eqn:Ei; intros [= <- <-]; eauto 8.
Qed.

Lemma sys_fstat_within fd : within fd (sys_fstat fd).
Proof.
  intros w r w'. unfold sys_fstat, bind. destruct (get_fd fd w) as [r1 w1] eqn:E.
  apply get_fd_cases in E. destruct E as [-> [->|(o & i & _ & _ & ->)]]; intros [= <- <-]; apply rawf_refl.
Qed.
Lemma sys_lseek_within fd off wh : within fd (sys_lseek fd off wh).
Proof.
  intros w r w'. unfold sys_lseek, bind. destruct (get_fd fd w) as [r1 w1] eqn:E.
  apply get_fd_cases in E. destruct E as [-> [->|(o & i & Ho & Hi & ->)]].
  { intros [= <- <-]. apply rawf_refl. }
  destruct (n_kind i); try (intros [= <- <-]; apply rawf_refl);
    (destruct (wh =? 0); [|destruct (wh =? 1); [|destruct (wh =? 2)]]);
    try (intros [= <- <-]; apply rawf_refl);
    (destruct (_ <? 0); intros [= <- <-]; [apply rawf_refl|now apply rawf_pos]).
Qed.
Lemma sys_read_within fd n : within fd (sys_read fd n).
Proof.
  intros w r w'. unfold sys_read, bind. destruct (get_fd fd w) as [r1 w1] eqn:E.
  apply get_fd_cases in E. destruct E as [-> [->|(o & i & Ho & Hi & ->)]].
  { intros [= <- <-]. apply rawf_refl. }
  destruct (negb (o_rd o)). { intros [= <- <-]. apply rawf_refl. }
  destruct (n_kind i) eqn:Ek.
  - destruct (n <? 0). { intros [= <- <-]. apply rawf_refl. }
    rewrite next_io_eq. destruct (hd IoFull (w_io w)); intros [= <- <-]; try apply rawf_io;
      (eapply rawf_trans; [apply rawf_io|]; now apply rawf_pos).
  - intros [= <- <-]. apply rawf_refl.
  - destruct (n <? 0). { intros [= <- <-]. apply rawf_refl. }
    rewrite next_io_eq. destruct (hd IoFull (w_io w)); intros [= <- <-]; try apply rawf_io;
      (eapply rawf_trans; [apply rawf_io|]; eapply rawf_ino; eauto).
Qed.
Lemma sys_write_within fd b : within fd (sys_write fd b).
Proof.
  intros w r w'. unfold sys_write, bind. destruct (get_fd fd w) as [r1 w1] eqn:E.
  apply get_fd_cases in E. destruct E as [-> [->|(o & i & Ho & Hi & ->)]].
  { intros [= <- <-]. apply rawf_refl. }
  destruct (negb (o_wr o)). { intros [= <- <-]. apply rawf_refl. }
  rewrite next_io_eq.
  assert (forall i' p, n_kind i' = n_kind i ->
    rawf fd w (upd_fd (upd_ino (set_io w (tl (w_io w))) (o_uid o) i') fd (Some (set_pos o p)))) as X.
  { intros i' p Hk. eapply rawf_trans; [apply rawf_io|].
    eapply rawf_trans; [eapply rawf_ino; eauto|]. now apply rawf_pos. }
  destruct (hd IoFull (w_io w)); [| |intros [= <- <-]; apply rawf_io];
    (destruct (n_kind i) eqn:Ek; intros [= <- <-]; try (apply X; cbn; congruence);
     eapply rawf_trans; [apply rawf_io|]; eapply rawf_ino; eauto).
Qed.
Lemma sys_ftruncate_within fd s : within fd (sys_ftruncate fd s).
Proof.
  intros w r w'. unfold sys_ftruncate, bind. destruct (get_fd fd w) as [r1 w1] eqn:E.
  apply get_fd_cases in E. destruct E as [-> [->|(o & i & Ho & Hi & ->)]].
  { intros [= <- <-]. apply rawf_refl. }
  destruct (negb (o_wr o) || (s <? 0)). { intros [= <- <-]. apply rawf_refl. }
  destruct (n_kind i) eqn:Ek; try (intros [= <- <-]; apply rawf_refl).
  rewrite next_io_eq. destruct (hd IoFull (w_io w)); intros [= <- <-]; try apply rawf_io;
      (eapply rawf_trans; [apply rawf_io|]; eapply rawf_ino; eauto).
Qed.
Lemma sys_flush_within fd : within fd (sys_flush_to_disk fd).
Proof.
  intros w r w'. unfold sys_flush_to_disk, bind. destruct (get_fd fd w) as [r1 w1] eqn:E.
  apply get_fd_cases in E. destruct E as [-> [->|(o & i & Ho & Hi & ->)]].
  { intros [= <- <-]. apply rawf_refl. }
  rewrite next_io_eq. destruct (hd IoFull (w_io w)); intros [= <- <-]; try apply rawf_io;
      (eapply rawf_trans; [apply rawf_io|]; eapply rawf_ino; eauto).
Qed.

Lemma check_closed_within fd f : within fd (check_closed f).
Proof. unfold check_closed. destruct (f_closed f); [apply within_raise|apply within_ret]. Qed.
Lemma check_readable_within fd f : within fd (check_readable f).
Proof. unfold check_readable. apply within_bind; [apply check_closed_within|intros _]. destruct (f_readable f); [apply within_ret|apply within_raise]. Qed.
Lemma check_writable_within fd f : within fd (check_writable f).
Proof. unfold check_writable. apply within_bind; [apply check_closed_within|intros _]. destruct (f_writable f); [apply within_ret|apply within_raise]. Qed.
Lemma check_seekable_within fd f : within fd (check_seekable f).
Proof. unfold check_seekable. apply within_bind; [apply check_closed_within|intros _]. destruct (f_seekable f); [apply within_ret|apply within_raise]. Qed.
Lemma inner_size_within f : within (fd_of f) (inner_size f).
Proof. apply within_bind; [apply sys_fstat_within|intros]. apply within_ret. Qed.
Lemma raw_size_within f : within (fd_of f) (raw_size f).
Proof. apply within_bind; [apply check_closed_within|intros _]. apply inner_size_within. Qed.
Lemma raw_tell_within f : within (fd_of f) (raw_tell f).
Proof. apply within_bind; [apply check_closed_within|intros _]. apply sys_lseek_within. Qed.
Lemma raw_seek_within f off wh : within (fd_of f) (raw_seek f off wh).
Proof. apply within_bind; [apply check_closed_within|intros _]. apply sys_lseek_within. Qed.
Lemma inner_read_within f n : within (fd_of f) (inner_read f n).
Proof.
  intros w r w'. unfold inner_read. destruct (sys_read (fd_of f) n w) as [r1 w1] eqn:E.
  apply sys_read_within in E. intros H.
  destruct r1 as [d|[]]; try (injection H as <- <-; exact E).
  destruct (errno =? EAGAIN); [|destruct (errno =? EPIPE)]; injection H as <- <-; exact E.
Qed.
Lemma inner_write_within f b : within (fd_of f) (inner_write f b).
Proof.
  intros w r w'. unfold inner_write. destruct (sys_write (fd_of f) b w) as [r1 w1] eqn:E.
  apply sys_write_within in E. intros H.
  destruct r1 as [d|[]]; try (injection H as <- <-; exact E).
  destruct (errno =? EAGAIN); injection H as <- <-; exact E.
Qed.
Lemma raw_write_within f b : within (fd_of f) (raw_write f b).
Proof.
  apply within_bind; [apply check_closed_within|intros _]. apply within_bind; [apply check_writable_within|intros _].
  apply within_bind; [apply inner_write_within|intros [n|]]; [|apply within_ret].
  destruct (_ && _); [apply within_raise|]. destruct (_ || _); [apply within_raise|apply within_ret].
Qed.
Lemma write_padding_within f : forall q, within (fd_of f) (write_padding q f).
Proof.
  induction q; cbn [write_padding]; [apply within_ret|].
  apply within_bind; [apply inner_write_within|intros _; exact IHq].
Qed.
Lemma truncate_fallback_within f s c : within (fd_of f) (truncate_fallback f s c).
Proof.
  unfold truncate_fallback. destruct (negb (c <? s)); [apply within_raise|].
  apply within_bind; [apply sys_lseek_within|intros _].
  apply within_bind; [apply sys_lseek_within|intros _].
  apply within_bind; [apply write_padding_within|intros _].
  apply within_bind; [apply inner_write_within|intros [k|]]; [|apply within_raise].
  destruct (_ =? _); apply within_raise.
Qed.
Lemma inner_reduce_within f s : within (fd_of f) (inner_reduce f s).
Proof. unfold inner_reduce. destruct (s <? 0); [apply within_raise|apply sys_ftruncate_within]. Qed.
Lemma inner_extend_within f s z : within (fd_of f) (inner_extend f s z).
Proof. unfold inner_extend. destruct (s <? 0); [apply within_raise|apply sys_ftruncate_within]. Qed.
Lemma raw_truncate_within f s : within (fd_of f) (raw_truncate f s).
Proof.
  unfold raw_truncate.
  apply within_bind; [apply check_seekable_within|intros _].
  apply within_bind; [apply check_writable_within|intros _].
  apply within_bind.
  { destruct s as [x|]; [destruct (x <? 0); [apply within_raise|apply within_ret]|apply raw_tell_within]. }
  intros sz. apply within_bind; [apply raw_size_within|intros cur].
  apply within_bind; [|intros _; apply raw_size_within].
  destruct (sz =? cur); [apply within_ret|]. destruct (sz <? cur); [apply inner_reduce_within|].
  apply within_bind; [apply inner_extend_within|intros _].
  apply within_bind; [apply raw_size_within|intros cur2].
  destruct (cur2 =? sz); [apply within_ret|apply truncate_fallback_within].
Qed.
Lemma readall_loop_within f : forall k acc, within (fd_of f) (readall_loop k f acc).
Proof.
  induction k; intros acc; cbn [readall_loop]; [apply within_raise|].
  apply within_bind.
  - apply within_bind; [apply check_closed_within|intros _]. apply within_bind; [apply check_readable_within|intros _].
    apply inner_read_within.
  - intros [[|x d]|]; try apply within_ret. apply IHk.
Qed.
Lemma raw_readall_within f : within (fd_of f) (raw_readall f).
Proof.
  apply within_bind; [|intros; apply readall_loop_within].
  intros w r w' [= <- <-]. apply rawf_refl.
Qed.
Lemma raw_read_within f n : within (fd_of f) (raw_read f n).
Proof.
  apply within_bind; [apply check_closed_within|intros _]. apply within_bind; [apply check_readable_within|intros _].
  destruct n as [n|]; [|apply raw_readall_within].
  destruct (n <? 0); [apply raw_readall_within|apply inner_read_within].
Qed.
Lemma raw_readinto_within f n : within (fd_of f) (raw_readinto f n).
Proof.
  apply within_bind; [apply check_closed_within|intros _]. apply within_bind; [apply check_readable_within|intros _].
  apply within_bind; [apply inner_read_within|intros [d|]]; [apply within_ret|apply within_raise].
Qed.
Lemma attempt_os_within fd m k : within fd m -> within fd k -> within fd (attempt_os m k).
Proof.
  intros Hm Hk w r w'. unfold attempt_os. destruct (m w) as [r1 w1] eqn:E. apply Hm in E.
  destruct r1 as [x|[]]; try (intros [= <- <-]; exact E). intros H. eapply rawf_trans; [exact E|]. eapply Hk; eauto.
Qed.
Lemma raw_sync_within h f m fl : within (fd_of f) (raw_sync h f m fl).
Proof.
  apply within_bind; [apply check_closed_within|intros _]. unfold inner_sync.
  destruct fl, (negb m && h); repeat apply attempt_os_within; apply sys_flush_within.
Qed.
