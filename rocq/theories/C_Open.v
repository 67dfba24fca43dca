(** Opening files: creation (C05), erasure under the lock only (C28), wrapping (C29), failures (C30). *)
From Coq Require Import ZArith Ascii String List Bool Lia.
From Verif Require Import M_Base M_Modes M_Registry M_Kernel M_World M_Raw M_Open S_Modes S_Locks S_LockFile S_Open S_Demo
  P_Modes P_Raw P_Registry P_Kernel P_Lock P_LockFile P_Close P_Frame C_Lock P_Open.
Import ListNotations.
Open Scope Z_scope.

(** * C05 *)

(** Whether it succeeds or fails, opening by path leaves every existing file exactly
    as it is, and every other directory entry; the entry for the path is created
    only if there was none and the flags allow it, and its file is then new and empty. *)
Theorem C05_open_file_system rk p w r w' : by_path rk p -> raw_open rk w = (r, w') ->
  (forall v i, w_inodes w v = Some i -> w_inodes w' v = Some i)
  /\ (forall n, n <> p -> w_names w' n = w_names w n)
  /\ ((w_names w' p = w_names w p /\ forall v, w_inodes w' v = w_inodes w v)
      \/ (w_names w p = None /\ rk_must_not_create rk = false
          /\ exists u, w_names w' p = Some u /\ w_inodes w u = None
               /\ w_inodes w' u = Some (mkIno KReg [] true)
               /\ forall v, v <> u -> w_inodes w' v = w_inodes w v)).
Proof.
  intros Hp H. split; [eapply raw_open_files; eauto|].
  apply (raw_open_path rk p) in H; auto.
  inversion H as [e io Hio|fd fds o i Hfd Hno Hn Hi Hk|w1 fd o i Hck Ho Hk]; subst; auto.
  pose proof (op_name _ _ _ _ _ _ _ Ho) as N1. pose proof (op_ino _ _ _ _ _ _ _ Ho) as I1.
  pose proof (op_inos _ _ _ _ _ _ _ Ho) as I2. split; [apply Ho|].
  destruct (op_how _ _ _ _ _ _ _ Ho) as [(A & B & _)|(A & B & C & D)].
  - left. split; [congruence|]. intros v. destruct (uid_dec v (o_uid o)) as [->|Hv]; [congruence|auto].
  - right. split; auto. split; auto. exists (o_uid o). subst i. auto.
Qed.

(** On success the stream is on the file the path names; with must_create there was no
    entry and the file is new and empty; with must_not_create there was one. *)
Theorem C05_open_success rk p w f w' : by_path rk p -> raw_open rk w = (Ok f, w') ->
  exists u, f_uid f = Some u /\ w_names w' p = Some u
    /\ (rk_must_create rk = true -> w_names w p = None /\ w_inodes w u = None /\ w_inodes w' u = Some (mkIno KReg [] true))
    /\ (rk_must_not_create rk = true -> w_names w p = Some u)
    /\ (w_names w p <> None -> w_names w p = Some u).
Proof.
  intros Hp H. apply (raw_open_path rk p) in H; auto.
  inversion H as [e io Hio|fd fds o i Hfd Hno Hn Hi Hk|w1 fd o i Hck Ho Hk]; subst.
  assert (rk_must_create rk && rk_must_not_create rk = false) as Hmm.
  { unfold init_checks in Hck. destruct (rk_must_create rk && rk_must_not_create rk); [|auto].
    repeat match type of Hck with (if ?x then _ else _) = _ => destruct x; [discriminate|] end. discriminate. }
  pose proof (op_name _ _ _ _ _ _ _ Ho) as N1. pose proof (op_ino _ _ _ _ _ _ _ Ho) as I1.
  exists (o_uid o). split; [reflexivity|]. split; [auto|].
  destruct (op_how _ _ _ _ _ _ _ Ho) as [(A & B & C & _)|(A & B & C & D)].
  - split; [|auto]. intros X. exfalso. apply C. split; auto. rewrite X in Hmm. exact Hmm.
  - split; [|split]; [intros _; subst i; auto|congruence|congruence].
Qed.

(** When the kernel has a descriptor and an inode number to give, the arguments are legal and
    the path is not a dangling or directory entry, opening succeeds exactly when
    the creation flags are compatible with the existence of the entry. *)
Theorem C05_open_succeeds_iff rk p w fd fds u us : by_path rk p -> init_checks rk = Ok tt ->
  w_newfd w = fd :: fds -> w_fds w fd = None -> w_newino w = u :: us -> w_inodes w u = None ->
  (forall e, hd_error (w_io w) <> Some (IoErr e)) ->
  (forall v, w_names w p = Some v -> exists i, w_inodes w v = Some i /\ n_kind i <> KDir) ->
  ((exists f w', raw_open rk w = (Ok f, w'))
   <-> (rk_must_create rk = true -> w_names w p = None) /\ (rk_must_not_create rk = true -> w_names w p <> None)).
Proof.
  intros Hp Hck Hfd Hno Hni Hu Hio Hn. split.
  - intros (f & w' & H). destruct (C05_open_success _ _ _ _ _ Hp H) as (v & _ & _ & A & B & _).
    split; [intros X; now apply A|]. intros X. specialize (B X). congruence.
  - intros [A B]. pose proof Hp as (P1 & P2 & P3).
    assert (wraps rk = false) as Hw by (unfold wraps; rewrite P2, P3; reflexivity).
    destruct (flags_fields rk) as (F1 & F2 & F3 & F4 & F5 & F6 & F7).
    destruct (sys_open p (unix_open_flags rk) w) as [r1 w1] eqn:Es. pose proof Es as Es0.
    assert (exists o i, r1 = Ok fd /\ w_fds w1 fd = Some o /\ w_inodes w1 (o_uid o) = Some i /\ o_pos o = 0
      /\ n_kind i <> KDir /\ w_opts w1 = w_opts w) as (o & i & -> & O1 & O2 & O3 & O4 & O5).
    { unfold sys_open, bind in Es. rewrite next_io_eq in Es.
      assert (match hd IoFull (w_io w) with IoErr _ => false | _ => true end = true) as Hio'.
      { destruct (w_io w) as [|[] l]; auto. exfalso. now apply (Hio errno). }
      assert (w_newfd (set_io w (tl (w_io w))) = fd :: fds) as X1 by exact Hfd.
      assert (w_fds (set_io w (tl (w_io w))) fd = None) as X2 by exact Hno.
      assert (w_newino (set_io w (tl (w_io w))) = u :: us) as X3 by exact Hni.
      assert (w_inodes (set_io w (tl (w_io w))) u = None) as X4 by exact Hu.
      assert (w_names (set_io w (tl (w_io w))) p = w_names w p) as X5 by reflexivity.
      assert (w_inodes (set_io w (tl (w_io w))) = w_inodes w) as X6 by reflexivity.
      rewrite F1, F6, F7 in Es.
      destruct (w_names w p) as [v|] eqn:En.
      - destruct (Hn v eq_refl) as (i & Hi & Hk). rewrite <- X6 in Hi.
        assert (rk_must_create rk = false) as Hmc.
        { destruct (rk_must_create rk); [|auto]. specialize (A eq_refl). discriminate. }
        rewrite Hmc, andb_false_r, andb_false_r in Es.
        eexists. exists i.
        destruct (hd IoFull (w_io w)); try discriminate Hio'; rewrite X1, X2, X5, Hi in Es;
          (destruct (n_kind i) eqn:Ek; [| congruence |]); cbv zeta in Es; injection Es as <- <-;
          (split; [reflexivity|]; split; [cbn; apply upd_same, Z.eqb_refl|]; split; [exact Hi|]);
          repeat split; auto; congruence.
      - assert (rk_must_not_create rk = false) as Hmn.
        { destruct (rk_must_not_create rk); [|auto]. exfalso. now apply (B eq_refl). }
        rewrite Hmn in Es. cbn [negb] in Es. eexists. exists (mkIno KReg [] true).
        destruct (hd IoFull (w_io w)); try discriminate Hio'; rewrite X1, X2, X5, X3, X4 in Es; cbv zeta in Es; injection Es as <- <-;
          (split; [reflexivity|]; split; [cbn; apply upd_same, Z.eqb_refl|]; split; [cbn; apply upd_same, P_Raw.uid_eqb_refl|]);
          repeat split; auto; discriminate. }
    destruct (init_rest rk w w1 fd o i Hck O1 O2 O3 O4 Hw O5 P3 P2 p P1 Es0) as (w2 & E2 & _). eauto.
Qed.

(** The whole of rsopen: directory entries, in terms of the arguments. *)
Lemma open_wrap_names a ek f w r w' : open_wrap a ek f w = (r, w') -> w_names w' = w_names w.
Proof.
  intros H. destruct (open_wrap_cases _ _ _ _ _ _ H) as (r1 & w1 & E1 & C).
  assert (w_names w1 = w_names w) as N1.
  { apply open_body_cases in E1.
    inversion E1 as [e w2 A1 A2 A3|w2 w3 w4 r2 A1 A2 A3 A4 A5|w3 w4 r2 A0 A4 A5]; subst.
    - now apply lock_file_env in A3.
    - apply lock_file_env in A3. rewrite (rf_names _ _ _ A5), (rf_names _ _ _ A4). tauto.
    - now rewrite (rf_names _ _ _ A5), (rf_names _ _ _ A4). }
  destruct C as [(-> & -> & _)|(e & r2 & _ & _ & Hc & _)]; [exact N1|].
  apply raw_close_kept in Hc. rewrite (kp_names _ _ Hc). exact N1.
Qed.
Theorem C05_rsopen_entries py_u a p w r w' : asks_path a p -> rsopen py_u a w = (r, w') ->
  (forall n, n <> p -> w_names w' n = w_names w n)
  /\ (w_names w p <> None -> w_names w' p = w_names w p)
  /\ (forall s, r = Ok s -> w_names w' p = f_uid (st_raw s)
                            /\ exists rk ek, rsopen_prelude py_u (a_name a) (a_mode a) (a_fileno a) (a_handle a) (a_closefd a)
                                 (a_opener a) (a_thread_safe a) (a_mutex a) (a_enc a) (a_errs a) (a_nl a) = Ok (rk, ek)
                               /\ (rk_must_create rk = true -> w_names w p = None)
                               /\ (rk_must_not_create rk = true -> w_names w p <> None)).
Proof.
  intros Ha H. unfold rsopen in H.
  destruct (rsopen_prelude _ _ _ _ _ _ _ _ _ _ _ _) as [[rk ek]|e] eqn:Ep.
  2:{ injection H as <- <-. repeat split; auto; discriminate. }
  destruct (prelude_fields _ _ _ _ Ep) as [F _]. destruct (F p Ha) as [Hp _].
  unfold bind in H. destruct (raw_open rk w) as [[f|e] w1] eqn:Eo.
  - pose proof (C05_open_file_system _ _ _ _ _ Hp Eo) as (_ & N1 & N2).
    pose proof (C05_open_success _ _ _ _ _ Hp Eo) as (u & U1 & U2 & U3 & U4 & U5).
    pose proof (open_wrap_names _ _ _ _ _ _ H) as N. rewrite N. split; [exact N1|]. split.
    { intros X. destruct N2 as [[N2 _]|(N2 & _)]; congruence. }
    intros s ->. assert (st_raw s = f) as ->.
    { destruct (open_wrap_cases _ _ _ _ _ _ H) as (r1 & w2 & E1 & [(A & _ & _)|(e & r2 & _ & _ & _ & e' & X)]); [|discriminate].
      subst r1. unfold open_body in E1. revert E1. unfold bind at 1.
      match goal with |- (match ?x with _ => _ end) = _ -> _ => destruct x as [[] w3] end; [|discriminate].
      cbv zeta. unfold bind at 1.
      match goal with |- (match ?x with _ => _ end) = _ -> _ => destruct x as [[] w4] end; [|discriminate].
      unfold bind at 1.
      match goal with |- (match ?x with _ => _ end) = _ -> _ => destruct x as [[] w5] end; [|discriminate].
      match goal with |- context[if ?x <? 0 then raise EAssert else _] => destruct (x <? 0); [discriminate|]; destruct (x =? 0) end; [destruct (ek_binary ek); [|discriminate]; now intros [= <- <-]|].
      unfold bind at 1.
      match goal with |- (match ?x with _ => _ end) = _ -> _ => destruct x as [[] w6] end; [|discriminate];
        (destruct (ek_binary ek); [now intros [= <- <-]|]; unfold bind; destruct (make_text _ _ _) as [[] w7]; [|discriminate]; now intros [= <- <-]). }
    split; [congruence|]. exists rk, ek. split; [reflexivity|]. split; [intros X; now apply U3|]. intros X. specialize (U4 X). congruence.
  - injection H as <- <-. pose proof (C05_open_file_system _ _ _ _ _ Hp Eo) as (_ & N1 & N2).
    split; [exact N1|]. split; [|discriminate]. intros X. destruct N2 as [[N2 _]|(N2 & _)]; congruence.
Qed.

(** * C28 *)

Lemma untouched_refl w : files_untouched w w.
Proof. intros v i H. exists i. split; auto. now left. Qed.

(** rsopen with locking: every file keeps its bytes (others may write during the
    waits), or it is the file opened and, before anything was erased,
    the exclusive lock on all of it was obtained. *)
Theorem C28_erase_only_under_lock py_u a w r w' v i :
  rsopen py_u a w = (r, w') -> a_locking a = true -> w_inodes w v = Some i ->
  (exists i', w_inodes w' v = Some i' /\ others_only (w_env w) i i')
  \/ exists rk f w1 w2 i2,
       raw_open rk w = (Ok f, w1)
       /\ raw_lock_file f (a_timeout a) PNone PNone 0 SNone w1 = (Ok (None, 0), w2)
       /\ f_uid f = Some v /\ obtained f w1 w2 0 None false
       /\ w_inodes w2 v = Some i2 /\ others_only (w_env w) i i2.
Proof.
  intros H Hl Hv. unfold rsopen in H.
  destruct (rsopen_prelude _ _ _ _ _ _ _ _ _ _ _ _) as [[rk ek]|e] eqn:Ep.
  2:{ injection H as <- <-. left. exists i. split; auto. now left. }
  unfold bind in H. destruct (raw_open rk w) as [[f|e] w1] eqn:Eo.
  2:{ injection H as <- <-. left. exists i. split; [eapply raw_open_files; eauto|now left]. }
  pose proof (raw_open_files _ _ _ _ Eo) as [V1 I1]. specialize (I1 _ _ Hv).
  destruct (open_wrap_cases _ _ _ _ _ _ H) as (r1 & w2 & E1 & C).
  assert (w_inodes w' = w_inodes w2) as I2.
  { destruct C as [(_ & -> & _)|(e & r2 & _ & _ & Hc & _)]; [reflexivity|]. apply raw_close_kept in Hc. apply Hc. }
  rewrite I2. apply open_body_cases in E1.
  assert (forall w3, raw_lock_file f (a_timeout a) PNone PNone 0 SNone w1 = w3 ->
    exists i3, w_inodes (snd w3) v = Some i3 /\ others_only (w_env w) i i3) as HL.
  { intros [r3 w3] X. pose proof (lock_file_touched _ _ _ _ _ _ _ _ _ X v) as T. rewrite I1, V1 in T.
    unfold touched in T. cbn [snd]. destruct (w_inodes w3 v); [eauto|contradiction]. }
  inversion E1 as [e w3 A1 A2 A3|w3 w4 w5 r2 A1 A2 A3 A4 A5 A6 A7|w3 w4 r2 A0 A4 A5 A6 A7]; subst.
  - left. destruct (HL _ A3) as (i3 & B & B2). exists i3. auto.
  - destruct (HL _ A3) as (i3 & B & B2). cbn [snd] in B.
    destruct (f_writable f) eqn:Ew.
    2:{ left. rewrite A6, A7 by auto. eauto. }
    destruct (raw_open_shape _ _ _ _ Eo) as (u & fd & o & i0 & S1 & S2 & _ & _ & S3 & S4 & _).
    destruct (uid_dec v u) as [->|Hne].
    + right. exists rk, f, w1, w3, i3. split; auto. split; auto. split; auto. split; [|auto].
      rewrite C21_lock_file_default_share, Ew in A3. apply C21_lock_file_obtains in A3. apply A3.
    + left. exists i3. split; [|exact B2]. rewrite A6. rewrite (rf_inodes _ _ _ A4 v); [exact B|].
      intros o1 Ho. apply lock_file_env in A3. destruct A3 as (_ & _ & _ & _ & Hf). rewrite Hf in Ho.
      unfold fd_of in Ho. rewrite S2, S3 in Ho. injection Ho as <-. congruence.
  - destruct A0 as [A0|A0]; [|congruence]. left. exists i. split; [|now left]. rewrite A6, A7; auto.
Qed.

(** In particular, whenever the lock is not obtained no byte is changed. *)
Theorem C28_no_lock_no_erase py_u a w r w' :
  rsopen py_u a w = (r, w') -> a_locking a = true ->
  (forall rk f w1 x w2, raw_open rk w = (Ok f, w1) ->
     raw_lock_file f (a_timeout a) PNone PNone 0 SNone w1 <> (Ok x, w2)) ->
  files_untouched w w'.
Proof.
  intros H Hl Hn v i Hv. destruct (C28_erase_only_under_lock _ _ _ _ _ _ _ H Hl Hv) as [X|(rk & f & w1 & w2 & i2 & A & B & _)]; [exact X|].
  exfalso. eapply Hn; eauto.
Qed.

(** * C29 *)

(** Wrapping a descriptor other than 0 never erases (nor changes any file: what
    others write during the waits excepted). *)
Theorem C29_wrapping_keeps_files_partial py_u a d w r w' :
  rsopen py_u a w = (r, w') -> given a d -> d <> 0 -> files_untouched w w'.
Proof.
  intros H Hg Hd v i Hv. unfold rsopen in H.
  destruct (rsopen_prelude _ _ _ _ _ _ _ _ _ _ _ _) as [[rk ek]|e] eqn:Ep.
  2:{ injection H as <- <-. exists i. split; auto. now left. }
  unfold bind in H. destruct (raw_open rk w) as [[f|e] w1] eqn:Eo.
  2:{ injection H as <- <-. exists i. split; [eapply raw_open_files; eauto|now left]. }
  destruct (prelude_fields _ _ _ _ Ep) as [_ G]. destruct (G d Hg Hd) as [Hw|(n & Hn)].
  2:{ exfalso. unfold raw_open, raw_init, init_checks in Eo. rewrite Hn in Eo. discriminate. }
  pose proof (wrap_no_truncate _ _ _ _ _ _ _ _ _ _ _ _ _ _ Ep Hw) as Ht.
  pose proof (raw_open_files _ _ _ _ Eo) as [V1 I1]. specialize (I1 _ _ Hv).
  destruct (open_wrap_cases _ _ _ _ _ _ H) as (r1 & w2 & E1 & C).
  assert (w_inodes w' = w_inodes w2) as I2.
  { destruct C as [(_ & -> & _)|(e & r2 & _ & _ & Hc & _)]; [reflexivity|]. apply raw_close_kept in Hc. apply Hc. }
  rewrite I2. apply open_body_cases in E1.
  assert (forall w3, raw_lock_file f (a_timeout a) PNone PNone 0 SNone w1 = w3 ->
    exists i3, w_inodes (snd w3) v = Some i3 /\ others_only (w_env w) i i3) as HL.
  { intros [r3 w3] X. pose proof (lock_file_touched _ _ _ _ _ _ _ _ _ X v) as T. rewrite I1, V1 in T.
    unfold touched in T. cbn [snd]. destruct (w_inodes w3 v); [eauto|contradiction]. }
  inversion E1 as [e w3 A1 A2 A3|w3 w4 w5 r2 A1 A2 A3 A4 A5 A6 A7|w3 w4 r2 A0 A4 A5 A6 A7]; subst.
  - exact (HL _ A3).
  - rewrite A6, A7 by auto. exact (HL _ A3).
  - exists i. split; [|now left]. rewrite A6, A7; auto.
Qed.

(** * C30 *)

Lemma filter_none' {A} (p : A -> bool) l : (forall x, In x l -> p x = false) -> filter p l = [].
Proof.
  induction l; cbn; intros H; auto. rewrite H by auto. apply IHl. auto.
Qed.

Lemma whole_file_record lk : (forall b, in_range (lk_start lk) (lk_end lk) b <-> covers 0 None b) ->
  0 <= lk_start lk /\ match lk_end lk with Some e => lk_start lk < e | None => True end.
Proof.
  intros H. unfold in_range, covers in H.
  assert (lk_end lk = None) as E.
  { destruct (lk_end lk) as [e|]; [|auto]. exfalso. destruct (H (Z.max 0 e)) as [_ H1]. lia. }
  rewrite E in *. split; [|auto]. destruct (H (lk_start lk)) as [H1 _]. lia.
Qed.

(** Whatever fails once the file is open (locking, truncation, buffering or text arguments...),
    nothing remains, provided that the unlock system call of the final close() works if a
    lock was obtained. *)
Theorem C30_open_failure_released a ek rk p w f w1 e w2 r w' :
  by_path rk p -> sane w -> ~ In 0 (w_newfd w) ->
  raw_open rk w = (Ok f, w1) -> open_body a ek f w1 = (Err e, w2) -> e <> EHang ->
  (mine w2 (uid_of f) (fd_of f) <> [] -> forall x, ~ In (IoErr x) (w_io w2)) ->
  raw_close f w2 = (r, w') ->
  r = Ok tt /\ released w w'.
Proof.
  intros Hp Hs Hz Ho Hb He Hio Hc.
  pose proof (raw_open_path _ _ _ _ _ Hp Ho) as OP.
  inversion OP as [ | |wx fd o i Hck Hop Hk]; subst.
  assert (rk_closefd rk = true) as Hcf.
  { unfold init_checks in Hck. destruct Hp as (P1 & P2 & P3). rewrite P1, P2, P3 in Hck.
    destruct (rk_closefd rk); [auto|]. cbn [negb is_some orb andb] in Hck.
    repeat match type of Hck with (if ?x then _ else _) = _ => destruct x; [discriminate|] end. discriminate. }
  set (f := stream_of rk w fd o i) in *.
  assert (fd_of f = fd /\ uid_of f = o_uid o /\ f_uid f = Some (o_uid o) /\ f_fd f = Some fd
          /\ f_closed f = false /\ f_closefd f = true) as (Ffd & Fu & F3 & F4 & F5 & F6)
    by (repeat split; auto).
  clearbody f.
  pose proof (op_newfd _ _ _ _ _ _ _ Hop) as N1. pose proof (op_was _ _ _ _ _ _ _ Hop) as N2.
  assert (fd <> 0) as Hnz by (intros ->; apply Hz; rewrite N1; now left).
  assert (forall v, registry_of w1 = registry_of w /\ table w1 v = table w v /\ pending w1 v = pending w v) as R1.
  { intros v. assert (registry_of w1 = registry_of w) as X.
    { unfold registry_of. now rewrite (op_reg _ _ _ _ _ _ _ Hop), (op_pid _ _ _ _ _ _ _ Hop). }
    unfold table, pending. rewrite X. auto. }
  assert (forall v, mine w v fd = []) as M0.
  { intros v. unfold mine. apply filter_none'. intros lk Hlk. apply Z.eqb_neq. intros X.
    apply (sn_locks _ Hs v lk Hlk). congruence. }
  assert (forall v, mine w1 v fd = []) as M1.
  { intros v. unfold mine. destruct (R1 v) as (_ & -> & _). apply M0. }
  assert (forall v sh b, process_holds w1 v sh b <-> process_holds w v sh b) as K1.
  { intros. unfold process_holds. now rewrite (op_kern _ _ _ _ _ _ _ Hop), (op_pid _ _ _ _ _ _ _ Hop). }
  (* the world when close() is called *)
  assert ((forall d, same_ofd (w_fds w1 d) (w_fds w2 d)) /\ (exists i2, w_inodes w2 (o_uid o) = Some i2)
    /\ pending w2 (o_uid o) = pending w1 (o_uid o)
    /\ (forall v, v <> o_uid o -> r_map (registry_of w2) v = r_map (registry_of w1) v)
    /\ records_ok (mine w2 (o_uid o) fd) /\ (mine w2 (o_uid o) fd <> [] -> no_err w2)
    /\ (forall v sh b, process_holds w2 v sh b -> process_holds w1 v sh b
          \/ (v = o_uid o /\ exists lk, In lk (mine w2 v fd) /\ in_range (lk_start lk) (lk_end lk) b)))
    as (B1 & (i2 & B2) & B3 & B4 & B5 & B6 & B7).
  { apply open_body_cases in Hb.
    assert (w_inodes w1 (o_uid o) = Some i) as I1 by apply Hop.
    assert (forall wa wb, rawf (fd_of f) wa wb -> (forall d, same_ofd (w_fds w1 d) (w_fds wa d)) ->
      forall d, same_ofd (w_fds w1 d) (w_fds wb d)) as SO.
    { intros wa wb R S d. eapply same_ofd_trans; [apply S|]. destruct (Z.eq_dec d (fd_of f)) as [->|Hd].
      - apply R. - rewrite (rf_fds _ _ _ R d Hd). apply same_ofd_refl. }
    assert (forall wa wb v, rawf (fd_of f) wa wb -> (exists x, w_inodes wa v = Some x) -> exists x, w_inodes wb v = Some x) as SI.
    { intros wa wb v R (x & Hx). pose proof (rf_kind _ _ _ R v) as X. rewrite Hx in X.
      destruct (w_inodes wb v); [eauto|discriminate]. }
    assert (forall wa wb, rawf (fd_of f) wa wb -> registry_of wb = registry_of wa
      /\ forall v sh b, process_holds wb v sh b <-> process_holds wa v sh b) as SR.
    { intros wa wb R. unfold registry_of, process_holds. rewrite (rf_reg _ _ _ R), (rf_pid _ _ _ R), (rf_kern _ _ _ R). split; [auto|tauto]. }
    assert (forall t x w3, raw_lock_file f t PNone PNone 0 SNone w1 = (x, w3) ->
      (forall d, same_ofd (w_fds w1 d) (w_fds w3 d)) /\ exists i3, w_inodes w3 (o_uid o) = Some i3) as SL.
    { intros t x w3 X. split.
      - intros d. apply lock_file_env in X. destruct X as (_ & _ & _ & _ & X). rewrite X. apply same_ofd_refl.
      - pose proof (lock_file_touched _ _ _ _ _ _ _ _ _ X (o_uid o)) as T. rewrite I1 in T. unfold touched in T.
        destruct (w_inodes w3 (o_uid o)); [eauto|contradiction]. }
    inversion_clear Hb as [e' w3 A1 A2 A3|w3 w4 w5 r2 A1 A2 A3 A4 A5 A6 A7|w4 w5 r2 A0 A4 A5 A6 A7].
    - destruct (SL _ _ _ A3) as [S1 S2]. split; [exact S1|]. split; [exact S2|].
      pose proof (C19_failed_lock_no_trace _ _ _ _ _ _ _ _ _ A3 He) as [].
      rewrite Fu, Ffd in *. split; [auto|]. split; [auto|]. rewrite nt_mine, M1.
      split; [intros lk []|]. split; [congruence|]. intros v sh b X. left.
      destruct X as (s & X1 & X2 & X3). assert (In s (own_kernel w2)) as X4.
      { apply filter_In. split; auto. now apply Z.eqb_eq. }
      rewrite nt_kernel in X4. apply filter_In in X4. exists s. rewrite nt_pid in X2. tauto.
    - destruct (SL _ _ _ A3) as [S1 S2].
      destruct (SR _ _ A4) as [R4 H4]. destruct (SR _ _ A5) as [R5 H5].
      assert (registry_of w2 = registry_of w3) as R2 by congruence.
      split; [eapply SO; [exact A5|]; eapply SO; [exact A4|exact S1]|].
      split; [eapply SI; [exact A5|]; eapply SI; [exact A4|exact S2]|].
      rewrite C21_lock_file_default_share in A3. apply C21_lock_file_obtains in A3. destruct A3 as (_ & _ & _ & []).
      rewrite Fu, Ffd in *. unfold pending, mine, table in *. rewrite R2.
      split; [auto|]. split; [auto|]. destruct ob_mine as (lk & L1 & L2 & L3 & L4).
      unfold mine, table in M1. rewrite M1 in L1. cbn in L1. rewrite L1.
      split; [intros x [<-|[]]; now apply whole_file_record|]. split; [intros X x; apply Hio; unfold mine, table; rewrite R2, L1; exact X|].
      intros v sh b X. apply H5, H4 in X. destruct (uid_dec v (o_uid o)) as [->|Hv].
      + destruct (Z.le_gt_cases 0 b) as [Hb0|Hb0].
        * right. split; auto. exists lk. rewrite L1. split; [now left|]. apply L4. unfold covers. auto.
        * left. apply ob_kernel_other in X; auto. intros [_ Y]. unfold covers in Y. lia.
      + left. apply ob_kernel_other in X; auto. tauto.
    - destruct (SR _ _ A4) as [R4 H4]. destruct (SR _ _ A5) as [R5 H5].
      assert (registry_of w2 = registry_of w1) as R2 by congruence.
      split; [eapply SO; [exact A5|]; eapply SO; [exact A4|]; intros; apply same_ofd_refl|].
      split; [eapply SI; [exact A5|]; eapply SI; [exact A4|eauto]|].
      unfold pending, mine, table in *. rewrite R2, M1. split; [auto|]. split; [auto|].
      split; [intros lk []|]. split; [congruence|]. intros v sh b X. left. now apply H5, H4 in X. }
  assert (owner f w2 (o_uid o) fd) as O.
  { constructor; auto.
    - pose proof (B1 fd) as X. rewrite (op_fd _ _ _ _ _ _ _ Hop) in X. cbn in X. destruct (w_fds w2 fd) as [o2|]; [|contradiction].
      exists o2. intuition congruence.
    - congruence.
    - split; rewrite B3; destruct (R1 (o_uid o)) as (_ & _ & ->); [apply Hs|].
      intros d Hd. destruct (sn_open _ Hs _ _ Hd) as (od & Od1 & Od2).
      assert (d <> fd) as Hne by (intros ->; congruence).
      pose proof (B1 d) as X. rewrite (op_fds _ _ _ _ _ _ _ Hop d Hne), Od1 in X. cbn in X.
      destruct (w_fds w2 d) as [o2|]; [|contradiction]. exists o2. intuition congruence.
    - rewrite B3. destruct (R1 (o_uid o)) as (_ & _ & ->). intros X. destruct (sn_open _ Hs _ _ X) as (od & Y & _). congruence. }
  destruct (raw_close_ok f w2 (o_uid o) fd O F5 F6 B5 B6) as (w3 & E3 & K3 & C1 & C2 & C3 & C4 & C5 & C6).
  rewrite E3 in Hc. injection Hc as <- <-. split; [reflexivity|].
  assert (forall d, d <> fd -> w_fds w d = None -> w_fds w3 d = None) as Fo.
  { intros d Hd Hn. pose proof (B1 d) as X. rewrite (op_fds _ _ _ _ _ _ _ Hop d Hd), Hn in X. cbn in X.
    destruct (w_fds w2 d) eqn:E2; [contradiction|]. destruct (kp_fds _ _ K3 d) as [Y|Y]; congruence. }
  constructor.
  - intros d Hn. destruct (Z.eq_dec d fd) as [->|Hd]; [|left; auto].
    destruct C5 as [(_ & X & _)|(X & Y & _)]; [now left|]. right.
    destruct (table w3 (o_uid o)) as [|lk l] eqn:Et; [congruence|]. exists (o_uid o), lk.
    split; [exact Y|]. split; [rewrite Et; now left|].
    assert (In lk (filter (fun lk => negb (lk_handle lk =? fd)) (table w2 (o_uid o)))) as Z by (rewrite <- C2; now left).
    apply filter_In in Z. destruct Z as [_ Z]. now apply negb_true_iff, Z.eqb_neq in Z.
  - intros v d Hh Hn. rewrite N1 in Hh. cbn in Hh. injection Hh as <-.
    destruct (uid_dec v (o_uid o)) as [->|Hv]; [exact C1|].
    unfold mine, table. rewrite C3, B4 by auto. apply M1.
  - intros v sh b X. pose proof (kp_own _ _ K3 _ _ _ X) as X2. apply B7 in X2.
    destruct X2 as [X2|(-> & lk & L1 & L2)]; [now apply K1|]. exfalso. exact (C4 lk sh b L1 L2 X).
Qed.

(** The whole function, for a path that is not a directory: after an exception nothing
    remains.  (If locking was asked, under the assumption that system calls after
    open(2) do not fail: a failing unlock would make close() give up.) *)
Theorem C30_failed_rsopen_releases_partial py_u a p w e w' :
  asks_path a p -> sane w -> ~ In 0 (w_newfd w) ->
  (forall v i, w_names w p = Some v -> w_inodes w v = Some i -> n_kind i <> KDir) ->
  (a_locking a = true -> forall x, ~ In (IoErr x) (tl (w_io w))) ->
  rsopen py_u a w = (Err e, w') -> e <> EHang -> released w w'.
Proof.
  intros Ha Hs Hz Hd Hio H He.
  assert (released w w) as R0.
  { constructor; auto. intros v d _ Hn. unfold mine. apply filter_none'. intros lk Hlk. apply Z.eqb_neq. intros X.
    apply (sn_locks _ Hs v lk Hlk). congruence. }
  unfold rsopen in H.
  destruct (rsopen_prelude _ _ _ _ _ _ _ _ _ _ _ _) as [[rk ek]|e0] eqn:Ep.
  2:{ injection H as <- <-. exact R0. }
  destruct (prelude_fields _ _ _ _ Ep) as [F _]. destruct (F p Ha) as [Hp _].
  unfold bind in H. destruct (raw_open rk w) as [[f|e1] w1] eqn:Eo.
  - destruct (open_wrap_cases _ _ _ _ _ _ H) as (r1 & w2 & E1 & [(<- & -> & [X|(s & X)])|(e1 & r2 & -> & He1 & Hc & _)]).
    + congruence.
    + discriminate.
    + eapply C30_open_failure_released; eauto. intros Hm x Hx.
      destruct (a_locking a) eqn:Hl.
      2:{ exfalso. apply Hm. clear Hx. apply open_body_cases in E1.
          pose proof (raw_open_path _ _ _ _ _ Hp Eo) as OP. inversion OP as [ | |wx fd o i Hck Hop Hk]; subst.
          inversion E1 as [e' w3 A1 A2 A3|w3 w4 w5 r3 A1 A2 A3 A4 A5 A6 A7|w4 w5 r3 A0 A4 A5 A6 A7]; subst; [congruence..|].
          unfold mine, table, registry_of.
          rewrite (rf_reg _ _ _ A5), (rf_pid _ _ _ A5), (rf_reg _ _ _ A4), (rf_pid _ _ _ A4).
          rewrite (op_reg _ _ _ _ _ _ _ Hop), (op_pid _ _ _ _ _ _ _ Hop).
          apply filter_none'. intros lk Hlk. apply Z.eqb_neq. intros X. apply (sn_locks _ Hs _ _ Hlk).
          rewrite X. exact (op_was _ _ _ _ _ _ _ Hop). }
      apply (Hio eq_refl x).
      pose proof (raw_open_path _ _ _ _ _ Hp Eo) as OP. inversion OP as [ | |wx fd o i Hck Hop Hk]; subst.
      rewrite <- (op_io _ _ _ _ _ _ _ Hop).
      apply open_body_cases in E1. inversion E1 as [e' w3 A1 A2 A3|w3 w4 w5 r3 A1 A2 A3 A4 A5 A6 A7|w4 w5 r3 A0 A4 A5 A6 A7]; subst.
      * apply lock_file_env in A3. now apply A3.
      * apply lock_file_env in A3. apply A3. apply (rf_io _ _ _ A4), (rf_io _ _ _ A5), Hx.
      * apply (rf_io _ _ _ A4), (rf_io _ _ _ A5), Hx.
  - injection H as <- <-. pose proof (raw_open_path _ _ _ _ _ Hp Eo) as OP.
    inversion OP as [e2 io Hi|fd fds o i Hfd Hno Hn Hi Hk|]; subst.
    + destruct R0. constructor; auto.
    + exfalso. eapply Hd; eauto.
Qed.

(** * C28, continued: a failed lock *)

(** If the lock is not obtained, the exception is the one of lock_file, the files are
    untouched and the descriptor is released, whatever system calls do. *)
Theorem C28_failed_lock_releases a ek rk p w f w1 e w2 r w' :
  by_path rk p -> sane w -> ~ In 0 (w_newfd w) ->
  raw_open rk w = (Ok f, w1) -> f_seekable f = true -> a_locking a = true ->
  raw_lock_file f (a_timeout a) PNone PNone 0 SNone w1 = (Err e, w2) -> e <> EHang ->
  open_wrap a ek f w1 = (r, w') ->
  r = Err e /\ files_untouched w w' /\ released w w'.
Proof.
  intros Hp Hs Hz Ho Hsk Hl Hlk He H.
  assert (open_body a ek f w1 = (Err e, w2)) as Hb.
  { unfold open_body, bind. now rewrite Hsk, Hl, Hlk. }
  unfold open_wrap in H. rewrite Hb in H.
  destruct (raw_close f w2) as [r0 w3] eqn:Hc.
  assert (mine w2 (uid_of f) (fd_of f) = []) as Hm.
  { pose proof (C19_failed_lock_no_trace _ _ _ _ _ _ _ _ _ Hlk He) as N. rewrite (nt_mine _ _ _ _ N).
    pose proof (raw_open_path _ _ _ _ _ Hp Ho) as OP. inversion OP as [ | |wx fd o i Hck Hop Hk]; subst.
    unfold mine, table, registry_of. rewrite (op_reg _ _ _ _ _ _ _ Hop), (op_pid _ _ _ _ _ _ _ Hop).
    apply filter_none'. intros lk Hx. apply Z.eqb_neq. intros X. apply (sn_locks _ Hs _ _ Hx).
    rewrite X. exact (op_was _ _ _ _ _ _ _ Hop). }
  destruct (C30_open_failure_released a ek rk p w f w1 e w2 r0 w3 Hp Hs Hz Ho Hb He) as [-> R]; auto.
  assert (r = Err e /\ w' = w3) as [-> ->].
  { destruct e; try congruence; now injection H as <- <-. }
  split; [reflexivity|]. split; [|exact R].
  intros v i Hv. rewrite (kp_inodes _ _ (raw_close_kept _ _ _ _ Hc)).
  pose proof (raw_open_files _ _ _ _ Ho) as [V1 I1]. specialize (I1 _ _ Hv).
  pose proof (lock_file_touched _ _ _ _ _ _ _ _ _ Hlk v) as T. rewrite I1, V1 in T.
  unfold touched in T. destruct (w_inodes w2 v); [eauto|contradiction].
Qed.

(** * Witnesses *)

(** rsopen(name, mode, fileno=..., buffering=..., locking=..., timeout=0) *)
Definition args (n : pyname) (mode : string) (fileno : option Z) (buffering : option Z) (locking : bool) : openargs :=
  mkOA n (name mode) fileno None true None buffering locking (PInt 0) false false false false false None.
Definition by_name (n mode : string) (b : option Z) (locking : bool) := args (NPath (name n)) mode None b locking.

Lemma asked n mode b locking : asks_path (by_name n mode b locking) (name n).
Proof. repeat split. Qed.

(** What is observed: exception or class, content of "f", open descriptors among 0, 3, 4, locks. *)
Definition outcome (r : res stream * world) :=
  (match fst r with Ok s => Ok (st_layer s, st_bufsize s, st_text s) | Err e => Err e end,
   content (snd r) (1, 10), map (fun d => is_some (w_fds (snd r) d)) [0; 3; 4], w_kern (snd r)).

(** "x" on an existing file fails; on a new one it creates it; "N" never creates. *)
Example ex_create :
  outcome (rsopen true (by_name "f" "xb" None false) (demo [1; 2; 3] [] [] []))
    = (Err (EOS EEXIST), [1; 2; 3], [false; false; false], [])
  /\ (let '(r, w) := rsopen true (by_name "g" "xb" None false) (demo [1; 2; 3] [] [] []) in
      (w_names w (name "g"), outcome (r, w)) = (Some (1, 30), (Ok (LWriter, 4096, false), [1; 2; 3], [false; true; false], [])))
  /\ (let '(r, w) := rsopen true (by_name "g" "RNB" None false) (demo [1; 2; 3] [] [] []) in
      (w_names w (name "g"), outcome (r, w)) = (None, (Err (EOS ENOENT), [1; 2; 3], [false; false; false], []))).
Proof. vm_compute. repeat split; reflexivity. Qed.

(** The lock is free: erased.  Another process has it: not erased, nothing remains. *)
Example ex_lock_erase :
  outcome (rsopen true (by_name "f" "w" None true) (demo [1; 2; 3] [] [] []))
    = (Ok (LWriter, 4096, true), [], [false; true; false], [mkSeg 100 (1, 10) false 0 None])
  /\ outcome (rsopen true (by_name "f" "w" None true) (demo [1; 2; 3] [] [] [mkSeg 200 (1, 10) true 0 None]))
    = (Err (ELocking EAGAIN), [1; 2; 3], [false; false; false], [mkSeg 200 (1, 10) true 0 None]).
Proof. vm_compute. repeat split; reflexivity. Qed.

(** A world where descriptor [d] is open on "f". *)
Definition with_fd (d : Z) : world :=
  set_fds (demo [1; 2; 3] [] [] []) (fun x => if x =? d then Some (mkOfd (1, 10) 0 false true false false true) else None).

Example ex_wrap : outcome (rsopen true (args NNone "w" (Some 4) (Some 8) false) (with_fd 4))
  = (Ok (LWriter, 8, true), [1; 2; 3], [false; false; true], []).
Proof. vm_compute. reflexivity. Qed.

(** Descriptor 0 is erased: [if fileno or handle] (rsfile_factories.py, flag computation)
    takes 0 for "no descriptor". *)
Theorem C29_wrapping_never_erases_refuted :
  ~ (forall py_u a d w r w', rsopen py_u a w = (r, w') -> given a d -> files_untouched w w').
Proof.
  intros H.
  destruct (rsopen true (args NNone "w" (Some 0) (Some 8) false) (with_fd 0)) as [r w] eqn:E.
  assert (content w (1, 10) = []) as C by (replace w with (snd (r, w)) by reflexivity; rewrite <- E; vm_compute; reflexivity).
  destruct (H _ _ 0 _ _ _ E (or_introl eq_refl) (1, 10) (mkIno KReg [1; 2; 3] false) eq_refl) as (i & A & [->|(ev & x & [] & _)]).
  unfold content in C. rewrite A in C. discriminate.
Qed.

(** After an error past the opening, nothing remains (the file has been erased, though). *)
Example ex_text_unbuffered : outcome (rsopen true (by_name "f" "w" (Some 0) true) (demo [1; 2; 3] [] [] []))
  = (Err EBadValue, [], [false; false; false], []).
Proof. vm_compute. reflexivity. Qed.

Lemma demo_sane data io env kern : sane (demo data io env kern).
Proof.
  constructor.
  - intros v. constructor.
  - intros v d [].
  - intros v lk [].
Qed.

(** Opening a directory by path fails and leaves its descriptor open. *)
Theorem C30_failed_rsopen_releases_refuted :
  ~ (forall py_u a p w e w', asks_path a p -> sane w -> ~ In 0 (w_newfd w) ->
       rsopen py_u a w = (Err e, w') -> e <> EHang -> released w w').
Proof.
  intros H. destruct (rsopen true (by_name "d" "rb" None false) (demo [] [] [] [])) as [r w] eqn:E.
  assert (r = Err (EOS EISDIR) /\ is_some (w_fds w 3) = true /\ w_reg w = mkReg 100 empty_map) as (-> & F & R).
  { vm_compute in E. injection E as <- <-. auto. }
  destruct (H _ _ (name "d") _ _ _ (asked _ _ _ _) (demo_sane [] [] [] []) ltac:(cbn; intuition discriminate) E ltac:(discriminate)).
  destruct (rl_fds 3 eq_refl) as [X|(v & lk & X & _)].
  - rewrite X in F. discriminate.
  - unfold pending, registry_of in X. rewrite R in X. unfold check_forking in X. cbn [r_pid] in X.
    destruct (w_pid w =? 100); exact X.
Qed.

(** If the unlock system call fails, close() gives up: descriptor and lock remain. *)
Theorem C30_unlock_error_refuted :
  ~ (forall py_u a p w e w', asks_path a p -> sane w -> ~ In 0 (w_newfd w) ->
       (forall v i, w_names w p = Some v -> w_inodes w v = Some i -> n_kind i <> KDir) ->
       rsopen py_u a w = (Err e, w') -> e <> EHang -> released w w').
Proof.
  intros H.
  destruct (rsopen true (by_name "f" "r" (Some 0) true) (demo [] [IoFull; IoFull; IoErr EIO] [] [])) as [r w] eqn:E.
  assert (r = Err (EOS EIO) /\ w_kern w = [mkSeg 100 (1, 10) true 0 None] /\ w_pid w = 100) as (-> & F & R).
  { vm_compute in E. injection E as <- <-. auto. }
  destruct (H _ _ (name "f") _ _ _ (asked _ _ _ _) (demo_sane _ _ _ _) ltac:(cbn; intuition discriminate)
    ltac:(intros v i; vm_compute; intros [= <-] [= <-]; discriminate) E ltac:(discriminate)).
  destruct (rl_kernel (1, 10) true 5) as (s & X & _).
  - exists (mkSeg 100 (1, 10) true 0 None). rewrite F, R. repeat split; cbn; auto; unfold in_range; cbn; lia.
  - exact X.
Qed.

(** Descriptor 0 (standard input closed before): [assert data] of close() fails. *)
Theorem C30_descriptor_zero_refuted :
  ~ (forall py_u a p w e w', asks_path a p -> sane w ->
       (forall v i, w_names w p = Some v -> w_inodes w v = Some i -> n_kind i <> KDir) ->
       rsopen py_u a w = (Err e, w') -> e <> EHang -> released w w').
Proof.
  intros H.
  destruct (rsopen true (by_name "f" "r" (Some 0) false) (set_newfd (demo [] [] [] []) [0])) as [r w] eqn:E.
  assert (exists e, r = Err e /\ e <> EHang) as (e & -> & He).
  { vm_compute in E. injection E as <- <-. eexists. split; [reflexivity|discriminate]. }
  assert (is_some (w_fds w 0) = true /\ w_reg w = mkReg 100 empty_map) as (F & R).
  { vm_compute in E. injection E as <- <-. auto. }
  assert (sane (set_newfd (demo [] [] [] []) [0])) as S.
  { constructor; [intros v; constructor|intros v d []|intros v lk []]. }
  destruct (H _ _ (name "f") _ _ _ (asked _ _ _ _) S
    ltac:(intros v i; vm_compute; intros [= <-] [= <-]; discriminate) E He).
  destruct (rl_fds 0 eq_refl) as [X|(v & lk & X & _)].
  - rewrite X in F. discriminate.
  - unfold pending, registry_of in X. rewrite R in X. unfold check_forking in X. cbn [r_pid] in X.
    destruct (w_pid w =? 100); exact X.
Qed.

Print Assumptions C05_open_file_system.
Print Assumptions C05_open_success.
Print Assumptions C05_open_succeeds_iff.
Print Assumptions C05_rsopen_entries.
Print Assumptions C28_erase_only_under_lock.
Print Assumptions C28_no_lock_no_erase.
Print Assumptions C28_failed_lock_releases.
Print Assumptions C29_wrapping_keeps_files_partial.
Print Assumptions C29_wrapping_never_erases_refuted.
Print Assumptions C30_open_failure_released.
Print Assumptions C30_failed_rsopen_releases_partial.
Print Assumptions C30_failed_rsopen_releases_refuted.
Print Assumptions C30_unlock_error_refuted.
Print Assumptions C30_descriptor_zero_refuted.
