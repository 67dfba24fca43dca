(** C62: what a call of rsopen refused because of its arguments does to the files. *)
From Coq Require Import ZArith Ascii String List Bool Lia.
From Verif Require Import M_Base M_Modes M_Registry M_Kernel M_World M_Raw M_Open S_Modes S_Locks S_LockFile S_Open S_Demo S_Reject
  P_Modes P_Raw P_Registry P_Kernel P_Lock P_LockFile P_Close P_Frame C_Lock P_Open C_Open C_Args.
Import ListNotations.
Open Scope string_scope.
Open Scope Z_scope.

(** * What never raises BadValueTypeError *)
Definition nb {A} (m : M A) : Prop := forall w w', m w <> (Err EBadValue, w').
Lemma nb_ret {A} (x : A) : nb (ret x).
Proof. intros w w'. discriminate. Qed.
Lemma nb_raise {A} e : e <> EBadValue -> nb (raise e : M A).
Proof. intros H w w' [= X _]. congruence. Qed.
Lemma nb_bind {A B} (m : M A) (k : A -> M B) : nb m -> (forall x, nb (k x)) -> nb (bind m k).
Proof.
  intros Hm Hk w w'. unfold bind. destruct (m w) as [[x|e] w1] eqn:E; [apply Hk|].
  intros [= -> ->]. exact (Hm _ _ E).
Qed.
Lemma nb_get_fd fd : nb (get_fd fd).
Proof. intros w w'. unfold get_fd. destruct (w_fds w fd); [destruct (w_inodes _ _)|]; discriminate. Qed.
Lemma nb_next : nb next_io.
Proof. intros w w'. rewrite next_io_eq. discriminate. Qed.
Lemma nb_fun {A} (g : world -> A) (h : world -> world) : nb (fun w => (Ok (g w), h w)).
Proof. intros w w'. discriminate. Qed.
Ltac nb := repeat (first
  [ apply nb_ret | apply nb_raise; discriminate | apply nb_get_fd | apply nb_next | apply nb_fun
  | apply nb_bind; [|intros ?]
  | match goal with |- nb (match ?x with _ => _ end) => destruct x end
  | match goal with |- nb (let '(_, _) := ?x in _) => destruct x end
  | progress cbv zeta ]).
Lemma nb_fstat fd : nb (sys_fstat fd). Proof. unfold sys_fstat. nb. Qed.
Lemma nb_lseek fd o wh : nb (sys_lseek fd o wh). Proof. unfold sys_lseek. nb. Qed.
Lemma nb_write fd b : nb (sys_write fd b). Proof. unfold sys_write. nb. Qed.
Lemma nb_ftruncate fd s : nb (sys_ftruncate fd s). Proof. unfold sys_ftruncate. nb. Qed.
Lemma nb_unlock fd lo len : nb (sys_unlock fd lo len). Proof. unfold sys_unlock. nb. Qed.
Lemma nb_lock_pre fd sh lo : nb (lock_pre fd sh lo). Proof. unfold lock_pre. nb. Qed.
Lemma nb_open p fl : nb (sys_open p fl).
Proof.
  unfold sys_open. apply nb_bind; [apply nb_next|]. intros e w w'.
  destruct e; try discriminate;
    repeat match goal with |- (match ?x with _ => _ end) <> _ => destruct x; try discriminate end.
Qed.
Lemma nb_close fd : nb (sys_close fd).
Proof. intros w w'. unfold sys_close. destruct (w_fds w fd); discriminate. Qed.
Lemma nb_close_all : forall l, nb (close_all l).
Proof. induction l; cbn [close_all]; nb; auto using nb_close. Qed.
Lemma nb_purge u : nb (purge_pending u).
Proof.
  intros w w'. unfold purge_pending. destruct (unique_id_has_locks _ _ _) as [[|] r1]; [discriminate|].
  destruct (remove_unique_id_data _ _ _) as [fds r2]. destruct (close_all fds _) as [[[]|e] w1] eqn:E; [discriminate|].
  intros [= -> ->]. exact (nb_close_all _ _ _ E).
Qed.
Lemma nb_finally {A} (m : M A) (c : M unit) : nb m -> nb c -> nb (finally m c).
Proof.
  intros Hm Hc w w'. unfold finally. destruct (m w) as [r w1] eqn:E. destruct (c w1) as [[[]|e] w2] eqn:E2.
  - intros [= -> ->]. exact (Hm _ _ E).
  - intros [= -> ->]. exact (Hc _ _ E2).
Qed.
Lemma nb_file_unlock f l o : nb (inner_file_unlock f l o).
Proof. unfold inner_file_unlock. apply nb_finally; [apply nb_unlock|]. nb. apply nb_purge. Qed.
Lemma nb_unlock_each f : forall l, nb (unlock_each f l).
Proof. induction l; cbn [unlock_each]; nb; auto using nb_file_unlock. Qed.
Lemma nb_raw_close f : nb (raw_close f).
Proof.
  unfold raw_close, inner_close_streams. destruct (f_closed f); [nb|]. nb; auto using nb_unlock_each, nb_purge.
  - intros w w'. destruct (remove_file_locks _ _ _ _). discriminate.
  - intros w w'. unfold add_unique_id_data. destruct (_ =? 0); [discriminate|].
    destruct (ensure_entry_exists _ _) as [? rr]. destruct (r_map rr _); discriminate.
  - intros w w'. destruct (try_deleting_unique_id_entry _ _ _). discriminate.
Qed.
Lemma nb_inner_write f b : nb (inner_write f b).
Proof.
  intros w w'. unfold inner_write. destruct (sys_write (fd_of f) b w) as [[n|e] w1] eqn:E; [discriminate|].
  destruct e; try discriminate; [intros _; exact (nb_write _ _ _ _ E)|]. destruct (_ =? EAGAIN); discriminate.
Qed.
Lemma nb_padding f : forall q, nb (write_padding q f).
Proof. induction q; cbn [write_padding]; nb; auto using nb_inner_write. Qed.
Lemma nb_truncate f s : nb (raw_truncate f s).
Proof.
  unfold raw_truncate, check_seekable, check_writable, check_closed, raw_tell, raw_size, inner_tell, inner_size, inner_reduce, inner_extend, truncate_fallback, check_closed, inner_tell, inner_seek.
  nb; auto using nb_lseek, nb_fstat, nb_ftruncate, nb_inner_write, nb_padding.
Qed.

Lemma nb_unregister f q : nb (unregister f q).
Proof.
  intros w w'. unfold unregister, unregister_file_lock, try_unlocking_range.
  destruct (r_map _ _) as [e|]; [|discriminate]. destruct (delete_match _ _ _ _); discriminate.
Qed.
Lemma nb_wait_count f d : nb (wait_count f d).
Proof. intros w w'. unfold wait_count, add_waiting. destruct (r_map _ _); discriminate. Qed.
Lemma timeout_not_bad f q now n : check_timeout f q now n <> Some EBadValue.
Proof.
  unfold check_timeout. destruct (q_timeout q); [destruct (_ <=? _)|destruct (f_enforced f); [destruct (_ <=? _)|]];
    try discriminate; destruct (f_spin f <? 0); discriminate.
Qed.
Lemma register_not_bad b p r u h l o s r' : register_once b p r u h l o s <> (Err EBadValue, r').
Proof.
  unfold register_once, try_locking_range. destruct (ensure_entry_exists _ _) as [x r1].
  destruct (r_map r1 u) as [e|]; [|discriminate]. destruct (scan_locks _ _ _ _ _); discriminate.
Qed.
Section Loop.
Variables (f : rawio) (q : lockreq).
Lemma nb_fail reg e : e <> EBadValue -> nb (l_fail f q reg e).
Proof.
  intros He w w'. unfold l_fail. destruct reg; [|congruence].
  destruct (unregister f q w) as [[[]|e'] w1] eqn:E; [congruence|]. intros [= -> ->]. exact (nb_unregister _ _ _ _ E).
Qed.
Section Step.
Variable env : list envev.
Hypothesis IH : forall ev env' ph, env = ev :: env' -> nb (lock_loop f q env' ph).
Lemma nb_wait ph : nb (l_wait f q env ph).
Proof. intros w w'. unfold l_wait. destruct env as [|ev env'] eqn:Ee; [discriminate|]. eapply IH; eauto. Qed.
Lemma nb_sleep ph n reg : nb (l_sleep f q env ph n reg).
Proof.
  intros w w'. unfold l_sleep. destruct (check_timeout f q _ _) as [e|] eqn:Et; [|apply nb_wait].
  apply nb_fail. intros ->. exact (timeout_not_bad _ _ _ _ Et).
Qed.
Lemma nb_attempt : nb (l_attempt f q env).
Proof.
  intros w w'. unfold l_attempt, lock_attempt. destruct (ksetlk _ _ _ _ _ _); [discriminate|].
  destruct (low_level_blocking f q); [apply nb_wait|apply nb_sleep].
Qed.
Lemma nb_kern : nb (l_kern f q env).
Proof.
  intros w w'. unfold l_kern. destruct (lock_pre _ _ _ w) as [r1 w1] eqn:Ep.
  destruct r1 as [x|e]; [apply nb_attempt|].
  destruct e; try (apply nb_fail; discriminate); [now apply nb_lock_pre in Ep|apply nb_sleep].
Qed.
Lemma nb_register b : nb (l_register f q env b).
Proof.
  intros w w'. unfold l_register. destruct (register_once _ _ _ _ _ _ _ _) as [r1 reg] eqn:Er.
  destruct r1 as [[]|e]; [apply nb_kern| |intros [= -> _]; exact (register_not_bad _ _ _ _ _ _ _ _ _ Er)].
  destruct (low_level_blocking f q); [|apply nb_sleep].
  destruct (wait_count f 1 (set_reg w reg)) as [[[]|e] w2] eqn:Ew; [apply nb_wait|].
  intros [= -> ->]. exact (nb_wait_count _ _ _ _ Ew).
Qed.
Lemma nb_step ph : nb (lock_loop f q env ph).
Proof.
  intros w w'. rewrite lock_loop_eq. destruct ph; [apply nb_register| |apply nb_kern|apply nb_attempt].
  destruct (wait_count f (-1) w) as [[[]|e] w2] eqn:Ew; [apply nb_register|].
  intros [= -> ->]. exact (nb_wait_count _ _ _ _ Ew).
Qed.
End Step.
Lemma nb_lock_loop : forall env ph, nb (lock_loop f q env ph).
Proof.
  induction env as [|ev env IH]; intros ph; apply nb_step; [discriminate|]. intros ev' env' ph' [= <- <-]. apply IH.
Qed.
End Loop.

Lemma nb_lock_file f t : bad_nonneg t = false -> nb (raw_lock_file f t PNone PNone 0 SNone).
Proof.
  intros Ht. unfold raw_lock_file, check_seekable, check_closed. apply nb_bind; [nb|]. intros _. rewrite Ht.
  cbn [bad_nonneg seek_value Z.eqb orb negb]. destruct (_ || _); [nb|]. unfold abs_offset. cbn [Z.eqb]. apply nb_bind; [nb|]. intros off w w'. cbv zeta.
  destruct (lock_loop _ _ _ _ _) as [[[]|e] w1] eqn:E; [discriminate|]. intros [= -> ->]. exact (nb_lock_loop _ _ _ _ _ _ E).
Qed.

(** * The stages of rsopen *)
Lemma parse_ext py_u nm mode fileno handle closefd rk ek : parse_mode py_u nm mode fileno handle closefd = Ok (rk, ek) ->
  (ek_binary ek = true <-> wants_binary mode) /\ (ek_truncate ek = true -> wants_erasure mode).
Proof.
  unfold parse_mode. set (cl := filter _ mode).
  assert (Low : str_eqb (map chr_lower cl) cl = true -> ~ In "B"%char mode).
  { intros E X. apply str_eqb_spec in E. assert (In "B"%char cl) as Y by (apply filter_In; auto).
    rewrite <- E in Y. apply in_map_iff in Y. destruct Y as (c & Hc & _). revert Hc. destruct c as [[] [] [] [] [] [] [] []]; vm_compute; discriminate. }
  assert (Up : str_eqb (map chr_upper cl) cl = true -> ~ In "b"%char mode).
  { intros E X. apply str_eqb_spec in E. assert (In "b"%char cl) as Y by (apply filter_In; auto).
    rewrite <- E in Y. apply in_map_iff in Y. destruct Y as (c & Hc & _). revert Hc. destruct c as [[] [] [] [] [] [] [] []]; vm_compute; discriminate. }
  unfold wants_binary, wants_erasure. destruct (str_eqb (map chr_lower cl) cl).
  - specialize (Low eq_refl). unfold parse_standard_args. intros H.
    repeat match type of H with (if ?x then _ else _) = _ => destruct x; [discriminate|] end.
    match type of H with match ?x with _ => _ end = _ => destruct x as [[pth fn]|]; [|discriminate] end.
    injection H as _ <-. cbn [ek_binary ek_truncate]. rewrite chr_mem_In. split; [tauto|].
    destruct (chr_mem "x" mode); [discriminate|]. rewrite chr_mem_In. auto.
  - destruct (str_eqb (map chr_upper cl) cl); [|discriminate]. specialize (Up eq_refl). unfold parse_advanced_args.
    destruct (_ || _); [discriminate|]. cbv zeta. intros [= _ <-]. cbn [ek_binary ek_truncate]. rewrite chr_mem_In. split; [tauto|].
    destruct (_ || _); [discriminate|]. rewrite chr_mem_In. auto.
Qed.
Lemma prelude_ext py_u a rk ek :
  rsopen_prelude py_u (a_name a) (a_mode a) (a_fileno a) (a_handle a) (a_closefd a)
          (a_opener a) (a_thread_safe a) (a_mutex a) (a_enc a) (a_errs a) (a_nl a) = Ok (rk, ek) ->
  (ek_binary ek = true <-> wants_binary (a_mode a)) /\ (ek_truncate ek = true -> wants_erasure (a_mode a)).
Proof.
  unfold rsopen_prelude. destruct (_ && _); [discriminate|].
  destruct (parse_mode _ _ _ _ _ _) as [[rk0 ek0]|e] eqn:Ep; [|discriminate]. apply parse_ext in Ep. intros H.
  match type of H with match ?x with _ => _ end = _ => destruct x as [rk1|e1]; [|discriminate] end.
  repeat match type of H with (if ?x then _ else _) = _ => destruct x; [discriminate|] end.
  injection H as _ <-. cbn [ek_binary ek_truncate]. destruct Ep as [A B]. split; [exact A|].
  destruct (ek_truncate ek0 && _); [discriminate|exact B].
Qed.

Lemma raw_open_bad rk w w' : raw_open rk w = (Err EBadValue, w') -> w' = w.
Proof.
  unfold raw_open, raw_init. destruct (checks_bad rk) as [Hck|Hck]; rewrite Hck.
  2:{ rewrite raw_close_unbuilt by reflexivity. now intros [= <-]. }
  set (f0 := mkRio None _ _ _ _ _ _ _ _ _). cbv zeta.
  assert (Hcs : forall f1 w1, inner_create_streams f0 rk w <> (Err EBadValue, f1, w1)).
  { intros f1 w1. unfold inner_create_streams. cbv zeta.
    assert (Hf : forall fd w2, (match sys_fstat fd w2 with
      | (Ok (u, _, _), w') => (Ok tt, mkRio (Some fd) (Some u) (f_closed f0) (f_closefd f0) (f_readable f0) (f_writable f0) (f_append f0) (f_seekable f0) (f_enforced f0) (f_spin f0), w')
      | (Err e, w') => (Err e, mkRio (Some fd) None (f_closed f0) (f_closefd f0) (f_readable f0) (f_writable f0) (f_append f0) (f_seekable f0) (f_enforced f0) (f_spin f0), w') end)
      <> (Err EBadValue, f1, w1)).
    { intros fd w2. destruct (sys_fstat fd w2) as [[[[u k] n]|e] w3] eqn:E; [discriminate|]. intros [= -> _ _]. exact (nb_fstat _ _ _ E). }
    destruct (rk_handle rk) as [h|]; [apply Hf|]. destruct (rk_fileno rk) as [n|]; [apply Hf|].
    destruct (rk_path rk) as [|p|z]; try discriminate.
    destruct (sys_open p (unix_open_flags rk) w) as [[fd|e] w2] eqn:Eo.
    2:{ intros [= -> _ _]. exact (nb_open _ _ _ _ Eo). }
    destruct (sys_fstat fd w2) as [[[[u k] n]|e] w3] eqn:E; [|intros [= -> _ _]; exact (nb_fstat _ _ _ E)].
    destruct k; try discriminate; unfold sys_set_inheritable; (destruct (w_fds w3 fd); [apply Hf|discriminate]). }
  destruct (inner_create_streams f0 rk w) as [[[[]|e] f1] w1] eqn:Ec; [|intros [= -> _]; now destruct (Hcs f1 w1)].
  destruct (sys_fstat (fd_of f1) w1) as [[[[u k] n]|e] w2] eqn:Es; [|intros [= -> _]; now apply nb_fstat in Es].
  destruct k; try (destruct (wraps rk); discriminate).
  all: destruct (rk_append rk); [|discriminate]; unfold raw_seek, check_closed, bind; cbn [f_closed]; unfold ret;
    match goal with |- context [inner_seek ?g 0 2 ?x] => destruct (inner_seek g 0 2 x) as [[z|e] w3] eqn:E end; [discriminate|];
    destruct e; try discriminate; [now apply nb_lseek in E|destruct (_ =? ESPIPE); discriminate].
Qed.
Lemma raw_open_kind rk w f w' : raw_open rk w = (Ok f, w') -> f_readable f || f_writable f = true.
Proof.
  unfold raw_open. destruct (raw_init rk w) as [[[[]|e] f1] w1] eqn:Ei; [|discriminate]. intros [= -> ->].
  unfold raw_init in Ei. destruct (init_checks rk) as [[]|] eqn:Hck; [|discriminate]. cbv zeta in Ei.
  assert (Hk : rk_read rk || (rk_write rk || rk_append rk) = true).
  { unfold init_checks in Hck. repeat match type of Hck with (if ?x then _ else _) = _ => destruct x eqn:?; [discriminate|] end.
    destruct (rk_read rk), (rk_write rk || rk_append rk); auto; discriminate. }
  set (f0 := mkRio None _ _ _ _ _ _ _ _ _) in Ei.
  destruct (inner_create_streams f0 rk w) as [[[[]|e] f1] w1] eqn:Ec; [|discriminate].
  assert (f_readable f1 || f_writable f1 = true) as Hf.
  { assert (forall fd w2, (match sys_fstat fd w2 with
      | (Ok (u, _, _), w') => (Ok tt, mkRio (Some fd) (Some u) (f_closed f0) (f_closefd f0) (f_readable f0) (f_writable f0) (f_append f0) (f_seekable f0) (f_enforced f0) (f_spin f0), w')
      | (Err e, w') => (Err e, mkRio (Some fd) None (f_closed f0) (f_closefd f0) (f_readable f0) (f_writable f0) (f_append f0) (f_seekable f0) (f_enforced f0) (f_spin f0), w') end)
      = (Ok tt, f1, w1) -> f_readable f1 || f_writable f1 = true) as Hfin.
    { intros fd w2. destruct (sys_fstat fd w2) as [[[[u k] n]|e] w3]; [|discriminate]. intros [= <- <-]. exact Hk. }
    unfold inner_create_streams in Ec.
    destruct (rk_handle rk) as [h|]; [eapply Hfin; eauto|]. destruct (rk_fileno rk) as [n|]; [eapply Hfin; eauto|].
    destruct (rk_path rk) as [|p|z]; try discriminate.
    destruct (sys_open p (unix_open_flags rk) w) as [[fd|e] w2]; [|discriminate].
    destruct (sys_fstat fd w2) as [[[[u k] n]|e] w3]; [|discriminate].
    destruct k; try discriminate; destruct (sys_set_inheritable fd (rk_inheritable rk) w3) as [[[]|e] w4]; try discriminate;
      eapply Hfin; eauto. }
  destruct (sys_fstat (fd_of f1) w1) as [[[[u k] n]|e] w2]; [|discriminate].
  destruct k; try (destruct (wraps rk); discriminate);
    (destruct (rk_append rk); [|injection Ei as <- _; exact Hf]);
    match type of Ei with context [raw_seek ?g 0 2 w2] => destruct (raw_seek g 0 2 w2) as [[z|e] w3] end;
    try (injection Ei as <- _; exact Hf); destruct e; try discriminate; destruct (_ =? ESPIPE); try discriminate; injection Ei as <- _; exact Hf.
Qed.

Lemma nb_isatty f : nb (raw_isatty f).
Proof. unfold raw_isatty, check_closed. nb. Qed.
Lemma nb_tail a ek f : f_readable f || f_writable f = true ->
  (ek_binary ek = false -> a_buffering a <> Some 0 /\ a_text_error a = None) -> nb (open_tail a ek f).
Proof.
  intros Hk Hb. unfold open_tail. set (b0 := match a_buffering a with None => -1 | Some b => b end). cbv zeta.
  assert (H0 : ek_binary ek = false -> b0 <> 0).
  { intros X. destruct (Hb X) as [Y _]. unfold b0. destruct (a_buffering a); [|discriminate]. congruence. }
  intros w w'. unfold bind at 1.
  match goal with |- (match ?x with _ => _ end) <> _ => destruct x as [r1 w1] eqn:E1 end.
  destruct r1 as [line|e].
  2:{ intros [= -> ->]. revert E1. destruct (b0 =? 1); [discriminate|]. destruct (b0 <? 0); [|discriminate].
      apply nb_isatty. }
  unfold bind at 1. destruct (buffer_size f _ w1) as [r2 w2] eqn:E2.
  assert (exists b, r2 = Ok b /\ (b = 0 -> b0 = 0)) as (b & -> & Hb0).
  { unfold buffer_size in E2. revert E2. destruct line.
    - cbn [Z.ltb]. change (-1 <? 0) with true. cbn iota.
      destruct (fd_of f =? 0); [intros [= <- _]; exists DEFAULT_BUFFER_SIZE; split; [reflexivity|discriminate]|].
      destruct (w_fds w1 (fd_of f)); intros [= <- _]; eexists; (split; [reflexivity|]); [|discriminate].
      destruct (1 <? w_blk w1) eqn:X; [apply Z.ltb_lt in X; lia|discriminate].
    - destruct (b0 <? 0) eqn:Y; [|intros [= <- _]; eauto].
      destruct (fd_of f =? 0); [intros [= <- _]; exists DEFAULT_BUFFER_SIZE; split; [reflexivity|discriminate]|].
      destruct (w_fds w1 (fd_of f)); intros [= <- _]; eexists; (split; [reflexivity|]); [|discriminate].
      destruct (1 <? w_blk w1) eqn:X; [apply Z.ltb_lt in X; lia|discriminate]. }
  destruct (b <? 0); [discriminate|]. destruct (b =? 0) eqn:Eb.
  { apply Z.eqb_eq in Eb. destruct (ek_binary ek); [discriminate|]. now destruct (H0 eq_refl (Hb0 Eb)). }
  revert w2 w' E2. intros w2 w' _. revert w2 w'. match goal with |- forall w2 w', ?m w2 <> _ => change (nb m) end.
  apply nb_bind.
  - unfold make_buffer, check_seekable, check_closed. destruct (f_readable f), (f_writable f); try discriminate Hk; cbn [andb]; nb.
  - intros l. destruct (ek_binary ek); [nb|]. destruct (Hb eq_refl) as [_ ->]. unfold make_text, raw_tell, check_closed, inner_tell. nb; apply nb_lseek.
Qed.

(** * C62 *)

(** A call refused as a bad combination of arguments, none of the mistakes being of those
    that are looked at late, has done nothing at all. *)
Theorem C62_refused_early_partial py_u a w w' :
  ~ late_mistake a -> rsopen py_u a w = (Err EBadValue, w') -> w' = w.
Proof.
  intros Hl H. unfold rsopen in H.
  destruct (rsopen_prelude _ _ _ _ _ _ _ _ _ _ _ _) as [[rk ek]|e] eqn:Ep; [|now injection H].
  destruct (prelude_ext _ _ _ _ Ep) as [Eb _].
  unfold bind in H. destruct (raw_open rk w) as [[f|e] w1] eqn:Eo.
  2:{ injection H as -> ->. eapply raw_open_bad; eauto. }
  exfalso. pose proof (raw_open_kind _ _ _ _ Eo) as Hk.
  assert (nb (open_body a ek f)) as Hbody.
  { unfold open_body. apply nb_bind.
    - destruct (f_seekable f); [|nb]. apply nb_bind.
      + destruct (a_locking a) eqn:El; [|nb]. apply nb_bind; [|intros ?; nb]. apply nb_lock_file.
        destruct (a_timeout a) as [|t|] eqn:Et; [reflexivity| |].
        * cbn. destruct (t <? 0) eqn:X; [|reflexivity]. exfalso. apply Hl. left. split; [exact El|]. right. exists t. split; [exact Et|]. now apply Z.ltb_lt.
        * exfalso. apply Hl. left. split; [exact El|]. now left.
      + intros _. destruct (ek_truncate ek); [|nb]. apply nb_bind; [apply nb_truncate|intros ?; nb].
    - intros _. apply (nb_tail a ek f Hk). intros X.
      assert (~ wants_binary (a_mode a)) as Y by (rewrite <- Eb; congruence).
      split; [intros Z; apply Hl; right; auto|]. destruct (a_text_error a) eqn:Et; [|reflexivity]. exfalso. apply Hl. right. split; [exact Y|]. right. congruence. }
  unfold open_wrap in H. destruct (open_body a ek f w1) as [[s|e] w2] eqn:E; [discriminate|].
  assert (e <> EBadValue) as He by (intros ->; exact (Hbody _ _ E)).
  destruct (raw_close f w2) as [[[]|e2] w3] eqn:Ec; destruct e; try discriminate; try congruence;
    injection H as -> ->; exact (nb_raw_close _ _ _ Ec).
Qed.

(** A mode that does not ask for erasure: no call of rsopen, whatever its other arguments
    and whether it fails or not, changes a byte of a file that exists. *)
Theorem C62_no_erasure_asked py_u a w r w' :
  rsopen py_u a w = (r, w') -> ~ wants_erasure (a_mode a) -> files_untouched w w'.
Proof.
  intros H Hn v i Hv. unfold rsopen in H.
  destruct (rsopen_prelude _ _ _ _ _ _ _ _ _ _ _ _) as [[rk ek]|e] eqn:Ep.
  2:{ injection H as <- <-. exists i. split; auto. now left. }
  destruct (prelude_ext _ _ _ _ Ep) as [_ Et].
  assert (ek_truncate ek = false) as Ht by (destruct (ek_truncate ek); [now destruct (Hn (Et eq_refl))|reflexivity]).
  unfold bind in H. destruct (raw_open rk w) as [[f|e] w1] eqn:Eo.
  2:{ injection H as <- <-. exists i. split; [eapply raw_open_files; eauto|now left]. }
  pose proof (raw_open_files _ _ _ _ Eo) as [V1 I1]. specialize (I1 _ _ Hv).
  destruct (open_wrap_cases _ _ _ _ _ _ H) as (r1 & w2 & E1 & C).
  assert (w_inodes w' = w_inodes w2) as I2.
  { destruct C as [(_ & -> & _)|(e & r2 & _ & _ & Hc & _)]; [reflexivity|]. apply raw_close_kept in Hc. apply Hc. }
  rewrite I2. apply open_body_cases in E1.
  assert (forall w3, raw_lock_file f (a_timeout a) PNone PNone 0 SNone w1 = w3 ->
    exists i3, w_inodes (snd w3) v = Some i3 /\ others_only (w_env w) i i3) as HL.
  { intros [r3 w3] X. pose proof (lock_file_touched _ _ _ _ _ _ _ _ _ X v) as T. rewrite I1, V1 in T.
    unfold touched in T. cbn [snd]. destruct (w_inodes w3 v); [eauto|contradiction]. }
  inversion E1 as [e w3 A1 A2 A3|w3 w4 w5 r2 A1 A2 A3 A4 A5 A6 A7|w3 w4 r2 A0 A4 A5 A6 A7]; subst.
  - exact (HL _ A3).
  - rewrite A6, A7 by auto. exact (HL _ A3).
  - exists i. split; [|now left]. rewrite A6, A7; auto.
Qed.

(** A bad timeout is noticed before the erasure. *)
Theorem C62_bad_timeout_no_erasure py_u a w r w' :
  rsopen py_u a w = (r, w') -> a_locking a = true -> bad_timeout a -> files_untouched w w'.
Proof.
  intros H Hl Hb. eapply C28_no_lock_no_erase; eauto. intros rk f w1 x w2 _.
  unfold raw_lock_file, bind. destruct (check_seekable f w1) as [[[]|e] w3]; [|discriminate].
  destruct Hb as [->|(t & -> & Ht)]; cbn [bad_nonneg]; [discriminate|]. apply Z.ltb_lt in Ht. rewrite Ht. discriminate.
Qed.

(** Refused calls would leave the files as they are: false, the file is erased. *)
Definition refused_keeps_files : Prop := forall py_u a p w w',
  asks_path a p -> rsopen py_u a w = (Err EBadValue, w') -> files_untouched w w'.
Theorem C62_refused_keeps_files_refuted : ~ refused_keeps_files.
Proof.
  intros H. destruct (rsopen true (by_name "f" "w" (Some 0) true) (demo [1; 2; 3] [] [] [])) as [r w] eqn:E.
  assert (r = Err EBadValue /\ content w (1, 10) = []) as [-> C].
  { change (fst (r, w) = Err EBadValue /\ content (snd (r, w)) (1, 10) = []). rewrite <- E. vm_compute. auto. }
  destruct (H _ _ _ _ _ (asked "f" "w" (Some 0) true) E (1, 10) (mkIno KReg [1; 2; 3] false) eq_refl) as (i & A & [->|(ev & x & [] & _)]).
  unfold content in C. rewrite A in C. discriminate.
Qed.
(** ... nor would they create one: false. *)
Definition refused_creates_nothing : Prop := forall py_u a p w w',
  asks_path a p -> rsopen py_u a w = (Err EBadValue, w') -> w_names w' p = w_names w p.
Theorem C62_refused_creates_nothing_refuted : ~ refused_creates_nothing.
Proof.
  intros H. destruct (rsopen true (by_name "g" "x" (Some 0) false) (demo [] [] [] [])) as [r w] eqn:E.
  assert (r = Err EBadValue /\ w_names w (name "g") = Some (1, 30)) as [-> C].
  { change (fst (r, w) = Err EBadValue /\ w_names (snd (r, w)) (name "g") = Some (1, 30)). rewrite <- E. vm_compute. auto. }
  specialize (H _ _ _ _ _ (asked "g" "x" (Some 0) false) E). rewrite C in H. discriminate.
Qed.

(** Refusals of each sort. *)
Example C62_example :
  let go m b := outcome (rsopen true (by_name "f" m b false) (demo [1; 2; 3] [] [] [])) in
  let none := [false; false; false] in
  go "rw" None = (Err EBadValue, [1; 2; 3], none, []) /\ go "w+t+" None = (Err EBadValue, [1; 2; 3], none, [])
  /\ go "a" (Some 0) = (Err EBadValue, [1; 2; 3], none, []) /\ go "WE" (Some 0) = (Err EBadValue, [], none, [])
  /\ outcome (rsopen true (mkOA (NPath (name "f")) (name "w") None None true None None true (PInt (-1)) false false false false false None) (demo [1; 2; 3] [] [] []))
     = (Err EBadValue, [1; 2; 3], none, [])
  /\ outcome (rsopen true (mkOA (NPath (name "f")) (name "w") None None true None None true (PInt 0) false false true false false (Some EValue)) (demo [1; 2; 3] [] [] []))
     = (Err EValue, [], none, []).
Proof. vm_compute. auto 8. Qed.

Print Assumptions C62_refused_early_partial.
Print Assumptions C62_no_erasure_asked.
Print Assumptions C62_bad_timeout_no_erasure.
Print Assumptions C62_refused_keeps_files_refuted.
Print Assumptions C62_refused_creates_nothing_refuted.
