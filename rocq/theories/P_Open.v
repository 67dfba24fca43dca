(** Opening a file: rsopen, from the arguments to the stream. *)
From Coq Require Import ZArith List Bool Lia Ascii.
From Verif Require Import M_Base M_Modes M_Registry M_Kernel M_World M_Raw M_Open S_Locks S_LockFile S_Open
  P_Modes P_Raw P_Registry P_Kernel P_Lock P_LockFile P_Close P_Frame C_Lock.
Import ListNotations.
Open Scope Z_scope.

(** * Invariants of the lock loop *)
Section LoopInv.
Variables (f : rawio) (q : lockreq) (P : world -> Prop) (E : list envev).
Hypothesis Preg : forall w r, P w -> P (set_reg w r).
Hypothesis Pio : forall w r, P w -> P (set_io w r).
Hypothesis Pkern : forall w r, P w -> P (set_kern w r).
Hypothesis Penv : forall w ev r, In ev E -> P w -> P (set_env (apply_env (uid_of f) (fd_of f) ev w) r).

Lemma inv_unregister w r w' : unregister f q w = (r, w') -> P w -> P w'.
Proof.
  unfold unregister. destruct (unregister_file_lock _ _ _ _ _ _) as [[[] reg] n];
    intros [= <- <-] H; now apply Preg.
Qed.
Lemma inv_wait_count d w r w' : wait_count f d w = (r, w') -> P w -> P w'.
Proof. unfold wait_count. destruct (add_waiting _ _ _); intros [= <- <-] H; auto. Qed.
Lemma inv_fail reg e w r w' : l_fail f q reg e w = (r, w') -> P w -> P w'.
Proof.
  unfold l_fail. destruct reg; [|intros [= <- <-]; auto].
  destruct (unregister f q w) as [[] w1] eqn:Eu; intros [= <- <-] H; eapply inv_unregister; eauto.
Qed.
Lemma inv_lock_pre fd sh lo w r w' : lock_pre fd sh lo w = (r, w') -> P w -> P w'.
Proof.
  unfold lock_pre, bind. destruct (get_fd fd w) as [r1 w1] eqn:Eg. apply get_fd_cases in Eg.
  destruct Eg as [-> [->|(o & i & Ho & Hi & ->)]]; [intros [= <- <-]; auto|].
  rewrite next_io_eq. intros H HP. apply (Pio _ (tl (w_io w))) in HP.
  destruct (hd IoFull (w_io w)); try (injection H as <- <-; exact HP);
    (destruct (lo <? 0); [injection H as <- <-; exact HP|]);
    (destruct (if sh then _ else _); injection H as <- <-; exact HP).
Qed.

Section Step.
Variable env : list envev.
Hypothesis Hincl : incl env E.
Hypothesis IH : forall ev env' ph w r w', env = ev :: env' -> lock_loop f q env' ph w = (r, w') -> P w -> P w'.

Lemma inv_wait ph w r w' : l_wait f q env ph w = (r, w') -> P w -> P w'.
Proof.
  unfold l_wait. destruct env as [|ev env'] eqn:Ee; [intros [= <- <-]; auto|].
  intros H HP. eapply IH; eauto. apply Penv; auto. apply Hincl. now left.
Qed.
Lemma inv_sleep ph n reg w r w' : l_sleep f q env ph n reg w = (r, w') -> P w -> P w'.
Proof. unfold l_sleep. destruct (check_timeout f q _ _); [apply inv_fail|apply inv_wait]. Qed.
Lemma inv_attempt w r w' : l_attempt f q env w = (r, w') -> P w -> P w'.
Proof.
  unfold l_attempt, lock_attempt. destruct (ksetlk _ _ _ _ _ _).
  - intros [= <- <-] H. now apply Pkern.
  - destruct (low_level_blocking f q); [apply inv_wait|apply inv_sleep].
Qed.
Lemma inv_kern w r w' : l_kern f q env w = (r, w') -> P w -> P w'.
Proof.
  unfold l_kern. destruct (lock_pre _ _ _ w) as [r1 w1] eqn:Ep. intros H HP.
  apply (inv_lock_pre _ _ _ _ _ _ Ep) in HP.
  destruct r1 as [x|[]]; try (eapply inv_fail; eauto; fail); [eapply inv_attempt; eauto|eapply inv_sleep; eauto].
Qed.
Lemma inv_register b w r w' : l_register f q env b w = (r, w') -> P w -> P w'.
Proof.
  unfold l_register. destruct (register_once _ _ _ _ _ _ _ _) as [r1 reg]. intros H HP.
  apply (Preg _ reg) in HP. destruct r1 as [[]|e]; [eapply inv_kern; eauto| |injection H as <- <-; auto].
  destruct (low_level_blocking f q); [|eapply inv_sleep; eauto].
  destruct (wait_count f 1 (set_reg w reg)) as [r2 w2] eqn:Ew. apply (inv_wait_count _ _ _ _ Ew) in HP.
  destruct r2; [eapply inv_wait; eauto|injection H as <- <-; auto].
Qed.
Lemma inv_step ph w r w' : lock_loop f q env ph w = (r, w') -> P w -> P w'.
Proof.
  rewrite lock_loop_eq. destruct ph; [apply inv_register| |apply inv_kern|apply inv_attempt].
  destruct (wait_count f (-1) w) as [r2 w2] eqn:Ew. intros H HP. apply (inv_wait_count _ _ _ _ Ew) in HP.
  destruct r2; [eapply inv_register; eauto|injection H as <- <-; auto].
Qed.
End Step.

Lemma lock_loop_inv : forall env ph w r w', incl env E -> lock_loop f q env ph w = (r, w') -> P w -> P w'.
Proof.
  induction env as [|ev env IH]; intros ph w r w' Hi; eapply inv_step; auto.
  - discriminate.
  - intros ev' env' ph' w1 r1 w1' [= <- <-] H. eapply IH; eauto. intros x Hx. apply Hi. now right.
Qed.
End LoopInv.

(** * Files during lock_file *)
Definition touched (E : list envev) (a b : option inode) : Prop :=
  match a, b with
  | Some i, Some i' => others_only E i i'
  | None, None => True
  | _, _ => False
  end.

Lemma lock_file_touched f t l o wh s w r w' : raw_lock_file f t l o wh s w = (r, w') ->
  forall v, touched (w_env w) (w_inodes w v) (w_inodes w' v).
Proof.
  assert (forall v, touched (w_env w) (w_inodes w v) (w_inodes w v)) as H0.
  { intros v. unfold touched, others_only. destruct (w_inodes w v); auto. }
  rewrite lock_file_args. intros H.
  destruct (f_closed f); [injection H as <- <-; exact H0|].
  destruct (negb (f_seekable f)); [injection H as <- <-; exact H0|].
  destruct (negb (args_ok _ _ _ _ _ _)); [injection H as <- <-; exact H0|].
  destruct (negb (share_ok _ _)); [injection H as <- <-; exact H0|].
  destruct (abs_offset f o wh w) as [r1 w1] eqn:Eo. apply abs_offset_pres in Eo. destruct Eo as [F1 F2].
  assert (w_inodes w1 = w_inodes w /\ w_env w1 = w_env w) as [I1 V1] by (rewrite F2; auto).
  destruct r1 as [off|e]; [|injection H as <- <-; rewrite I1; exact H0].
  set (q := mkReq _ _ _ _ _) in H.
  destruct (lock_loop f q (w_env w1) PhReg w1) as [r2 w2] eqn:El.
  assert (w' = w2) as -> by (destruct r2; now injection H).
  set (P := fun x : world => forall v, touched (w_env w) (w_inodes w v) (w_inodes x v)).
  apply (lock_loop_inv f q P (w_env w)) in El; auto.
  - intros x ev rr Hin HP v. cbn [set_env w_inodes]. rewrite apply_env_inodes.
    pose proof (HP v) as Hv. destruct (ev_data ev) as [d|] eqn:Ed; [|exact Hv].
    destruct (uid_eqb (uid_of f) v) eqn:Eu; [|exact Hv]. apply P_Raw.uid_eqb_eq in Eu. subst v.
    unfold touched in *. destruct (w_inodes w (uid_of f)) as [i|], (w_inodes x (uid_of f)) as [i'|]; try tauto.
    right. exists ev, d. split; auto. split; auto. f_equal.
    destruct Hv as [->|(ev' & d' & _ & _ & ->)]; reflexivity.
  - rewrite V1. apply incl_refl.
  - unfold P. rewrite I1. exact H0.
Qed.

Lemma lock_file_env f t l o wh s w r w' : raw_lock_file f t l o wh s w = (r, w') ->
  (w_names w' = w_names w /\ w_pid w' = w_pid w /\ w_newfd w' = w_newfd w /\ incl (w_io w') (w_io w)
   /\ forall fd, w_fds w' fd = w_fds w fd).
Proof.
  rewrite lock_file_args. intros H.
  assert (w_names w = w_names w /\ w_pid w = w_pid w /\ w_newfd w = w_newfd w /\ incl (w_io w) (w_io w)
    /\ forall fd, w_fds w fd = w_fds w fd) as H0 by auto using incl_refl.
  destruct (f_closed f); [injection H as <- <-; exact H0|].
  destruct (negb (f_seekable f)); [injection H as <- <-; exact H0|].
  destruct (args_ok f t l o wh s) eqn:Ea; [|injection H as <- <-; exact H0]. cbn [negb] in H.
  destruct (negb (share_ok _ _)); [injection H as <- <-; exact H0|].
  destruct (abs_offset f o wh w) as [r1 w1] eqn:Eo. apply abs_offset_pres in Eo. destruct Eo as [F1 F2].
  assert (w_names w1 = w_names w /\ w_pid w1 = w_pid w /\ w_newfd w1 = w_newfd w /\ incl (w_io w1) (w_io w)
    /\ forall fd, w_fds w1 fd = w_fds w fd) as H1.
  { rewrite F2. cbn. repeat split; auto using incl_refl. }
  destruct r1 as [off|e]; [|injection H as <- <-; exact H1].
  set (q := mkReq _ _ _ _ _) in H.
  pose proof (loop_general f q (args_ok_len _ _ _ _ _ _ Ea) false (w_env w1) w1 ltac:(discriminate)) as O.
  destruct (lock_loop f q (w_env w1) PhReg w1) as [r2 w2] eqn:El.
  assert (w' = w2) as -> by (destruct r2; now injection H).
  assert (exists ph w3, linv f q false (norm w1) ph w3 /\ w_names w2 = w_names w3 /\ w_pid w2 = w_pid w3
    /\ w_newfd w2 = w_newfd w3 /\ w_io w2 = w_io w3 /\ w_fds w2 = w_fds w3) as (ph & w3 & L & N1 & N2 & N3 & N4 & N5).
  { inversion O; subst; eauto 10; eexists; eexists; (split; [eauto|]); auto. }
  destruct L. cbn [norm w_names w_fds w_pid w_newfd w_io set_reg] in *.
  rewrite N1, N2, N3, N4, N5, li_names, li_pid, li_newfd, li_fds.
  destruct H1 as (A1 & A2 & A3 & A4 & A5). repeat split; auto. eapply incl_tran; eauto.
Qed.

(** * The system call *)

(** Between [w] and [w'] descriptor [fd], description [o], was opened on path [p]. *)
Record opened (rk : raw_kwargs) (p : list ascii) (w w' : world) (fd : Z) (o : ofd) (i : inode) : Prop := mkOpened {
  op_newfd : w_newfd w = fd :: w_newfd w';
  op_was : w_fds w fd = None;
  op_fd : w_fds w' fd = Some o;
  op_fds : forall d, d <> fd -> w_fds w' d = w_fds w d;
  op_name : w_names w' p = Some (o_uid o);
  op_names : forall n, n <> p -> w_names w' n = w_names w n;
  op_ino : w_inodes w' (o_uid o) = Some i;
  op_inos : forall v, v <> o_uid o -> w_inodes w' v = w_inodes w v;
  op_rd : o_rd o = if rk_write rk || rk_append rk then rk_read rk else true;
  op_wr : o_wr o = rk_write rk || rk_append rk;
  op_app : o_app o = rk_append rk;
  op_sync : o_sync o = rk_synchronized rk;
  op_inh : o_inh o = rk_inheritable rk;
  op_pos : o_pos o = if rk_append rk then match n_kind i with KPipe => 0 | _ => Z.of_nat (length (n_data i)) end else 0;
  op_kern : w_kern w' = w_kern w;
  op_reg : w_reg w' = w_reg w;
  op_pid : w_pid w' = w_pid w;
  op_env : w_env w' = w_env w;
  op_clock : w_clock w' = w_clock w;
  op_opts : w_opts w' = w_opts w;
  op_blk : w_blk w' = w_blk w;
  op_io : w_io w' = tl (w_io w);
  op_how : (w_names w p = Some (o_uid o) /\ w_inodes w (o_uid o) = Some i /\ ~ (rk_must_create rk = true /\ rk_must_not_create rk = false)
            /\ (rk_must_not_create rk = false -> n_kind i <> KDir))
           \/ (w_names w p = None /\ rk_must_not_create rk = false /\ w_inodes w (o_uid o) = None
               /\ i = mkIno KReg [] true) }.

Definition stream_of (rk : raw_kwargs) (w : world) (fd : Z) (o : ofd) (i : inode) : rawio :=
  mkRio (Some fd) (Some (o_uid o)) false (rk_closefd rk) (rk_read rk) (rk_write rk || rk_append rk) (rk_append rk)
        (match n_kind i with KReg => true | _ => false end) (opt_enforced (w_opts w)) (opt_spin (w_opts w)).

Lemma str_eqb_spec a b : names_eqb a b = true <-> a = b.
Proof. unfold names_eqb. apply str_eqb_eq. Qed.

Lemma raw_close_unbuilt f w : f_uid f = None -> raw_close f w = (Ok tt, w).
Proof.
  intros H. unfold raw_close, inner_close_streams, bind, ret. rewrite H.
  destruct (f_closed f), (f_closefd f); reflexivity.
Qed.

(** What opens, and what fails to. *)
Inductive sys_opened (path : list ascii) (fl : oflags) (w : world) : res Z -> world -> Prop :=
| SO_err e io : incl io (w_io w) -> sys_opened path fl w (Err (EOS e)) (set_io w io)
| SO_old fd fds u i : w_newfd w = fd :: fds -> w_fds w fd = None -> w_names w path = Some u ->
    w_inodes w u = Some i -> of_creat fl && of_excl fl = false ->
    (n_kind i = KDir -> of_wr fl || of_creat fl = false) -> (forall e, hd IoFull (w_io w) <> IoErr e) ->
    sys_opened path fl w (Ok fd)
      (upd_fd (set_newfd (set_io w (tl (w_io w))) fds) fd
         (Some (mkOfd u 0 (of_rd fl) (of_wr fl) (of_append fl) (of_sync fl) false)))
| SO_new fd fds u us : w_newfd w = fd :: fds -> w_fds w fd = None -> w_names w path = None ->
    w_newino w = u :: us -> w_inodes w u = None -> of_creat fl = true -> (forall e, hd IoFull (w_io w) <> IoErr e) ->
    sys_opened path fl w (Ok fd)
      (upd_fd (upd_ino (set_newfd (set_newino (set_names (set_io w (tl (w_io w)))
          (upd names_eqb (w_names w) path (Some u))) us) fds) u (mkIno KReg [] true)) fd
         (Some (mkOfd u 0 (of_rd fl) (of_wr fl) (of_append fl) (of_sync fl) false))).

Lemma sys_open_cases path fl w r w' : of_trunc fl = false -> sys_open path fl w = (r, w') ->
  sys_opened path fl w r w'.
Proof.
  intros Ht. unfold sys_open, bind. rewrite next_io_eq.
  set (e0 := hd IoFull (w_io w)). set (w0 := set_io w (tl (w_io w))).
  destruct (match e0 with IoErr n => Some n | _ => None end) as [n|] eqn:Ee.
  { destruct e0; try discriminate. intros [= <- <-]. apply SO_err, incl_tl_refl. }
  assert (forall e, e0 <> IoErr e) as He by (intros e X; rewrite X in Ee; discriminate).
  replace (match e0 with IoErr n => raise (EOS n) | _ => _ end w0)
    with ((fun w => match w_newfd w with
      | [] => (Err (EOS EMFILE), w)
      | fd :: fds =>
          match w_fds w fd with
          | Some _ => (Err (EOS EMFILE), w)
          | None =>
              match w_names w path with
              | None =>
                  if of_creat fl then
                    match w_newino w with
                    | [] => (Err (EOS ENOSPC), w)
                    | u :: us =>
                        match w_inodes w u with
                        | Some _ => (Err (EOS ENOSPC), w)
                        | None =>
                            let w1 := set_names w (upd names_eqb (w_names w) path (Some u)) in
                            let w2 := set_newfd (set_newino w1 us) fds in
                            let w3 := upd_ino w2 u (mkIno KReg [] true) in
                            (Ok fd, upd_fd w3 fd (Some (mkOfd u 0 (of_rd fl) (of_wr fl)
                                                              (of_append fl) (of_sync fl) false)))
                        end
                    end
                  else (Err (EOS ENOENT), w)
              | Some u =>
                  match w_inodes w u with
                  | None => (Err (EOS ENOENT), w)
                  | Some i =>
                      if of_creat fl && of_excl fl then (Err (EOS EEXIST), w)
                      else if (match n_kind i with KDir => of_wr fl || of_creat fl | _ => false end)
                      then (Err (EOS EISDIR), w)
                      else
                        let w1 := set_newfd w fds in
                        let w2 := if of_trunc fl then upd_ino w1 u (mkIno (n_kind i) [] true) else w1 in
                        (Ok fd, upd_fd w2 fd (Some (mkOfd u 0 (of_rd fl) (of_wr fl)
                                                          (of_append fl) (of_sync fl) false)))
                  end
              end
          end
      end : res Z * world) w0) by (destruct e0; [reflexivity|reflexivity|discriminate Ee]).
  cbv beta. unfold w0. cbn [w_newfd w_fds w_names w_newino w_inodes set_io].
  assert (forall e, sys_opened path fl w (Err (EOS e)) (set_io w (tl (w_io w)))) as Herr
    by (intros; apply SO_err, incl_tl_refl).
  destruct (w_newfd w) as [|fd fds] eqn:Efd; [intros [= <- <-]; apply Herr|].
  destruct (w_fds w fd) eqn:Eo; [intros [= <- <-]; apply Herr|].
  destruct (w_names w path) as [u|] eqn:En.
  - destruct (w_inodes w u) as [i|] eqn:Ei; [|intros [= <- <-]; apply Herr].
    destruct (of_creat fl && of_excl fl) eqn:Ex; [intros [= <- <-]; apply Herr|].
    destruct (match n_kind i with KDir => _ | _ => _ end) eqn:Ed; [intros [= <- <-]; apply Herr|].
    rewrite Ht. cbv zeta. intros [= <- <-]. eapply SO_old; eauto. intros Hk. now rewrite Hk in Ed.
  - destruct (of_creat fl) eqn:Ec; [|intros [= <- <-]; apply Herr].
    destruct (w_newino w) as [|u us] eqn:Ei; [intros [= <- <-]; apply Herr|].
    destruct (w_inodes w u) eqn:Eu; [intros [= <- <-]; apply Herr|].
    cbv zeta. intros [= <- <-]. eapply SO_new; eauto.
Qed.

Lemma flags_fields rk : of_trunc (unix_open_flags rk) = false
  /\ of_rd (unix_open_flags rk) = (if rk_write rk || rk_append rk then rk_read rk else true)
  /\ of_wr (unix_open_flags rk) = rk_write rk || rk_append rk
  /\ of_append (unix_open_flags rk) = rk_append rk /\ of_sync (unix_open_flags rk) = rk_synchronized rk
  /\ of_creat (unix_open_flags rk) = negb (rk_must_not_create rk)
  /\ of_excl (unix_open_flags rk) = negb (rk_must_not_create rk) && rk_must_create rk.
Proof.
  unfold unix_open_flags. destruct (rk_read rk), (rk_write rk), (rk_append rk), (rk_must_not_create rk), (rk_must_create rk);
    cbn; repeat split; reflexivity.
Qed.

(** After open(2) the rest of __init__ only looks at the new descriptor. *)
Lemma init_rest rk w w1 fd o0 i : init_checks rk = Ok tt ->
  w_fds w1 fd = Some o0 -> w_inodes w1 (o_uid o0) = Some i -> o_pos o0 = 0 -> n_kind i <> KDir ->
  wraps rk = false -> w_opts w1 = w_opts w ->
  rk_handle rk = None -> rk_fileno rk = None ->
  forall p, rk_path rk = NPath p -> sys_open p (unix_open_flags rk) w = (Ok fd, w1) ->
  let o := mkOfd (o_uid o0) (if rk_append rk then match n_kind i with KPipe => 0 | _ => Z.of_nat (length (n_data i)) end else 0)
                 (o_rd o0) (o_wr o0) (o_app o0) (o_sync o0) (rk_inheritable rk) in
  exists w2, raw_open rk w = (Ok (stream_of rk w fd o i), w2)
    /\ (forall d, w_fds w2 d = if fd =? d then Some o else w_fds w1 d) /\ w2 = set_fds w1 (w_fds w2).
Proof.
  intros Hck Ho Hi Hp Hk Hw Hop Hh Hf p Hpa Hs o.
  unfold raw_open, raw_init. rewrite Hck. cbv zeta.
  unfold inner_create_streams. rewrite Hh, Hf, Hpa, Hs.
  unfold sys_fstat at 1, bind, get_fd. rewrite Ho, Hi. unfold ret at 1.
  set (o1 := mkOfd (o_uid o0) (o_pos o0) (o_rd o0) (o_wr o0) (o_app o0) (o_sync o0) (rk_inheritable rk)).
  assert (forall {A} (x y : A), (match n_kind i with KDir => x | _ => y end) = y) as Hkd
    by (intros; destruct (n_kind i); congruence).
  unfold sys_set_inheritable. rewrite Ho.
  set (w1' := upd_fd w1 fd _).
  assert (w_fds w1' fd = Some o1) as Ho1 by (cbn; apply upd_same, Z.eqb_refl).
  assert (w_inodes w1' (o_uid o1) = Some i) as Hi1 by exact Hi.
  destruct (n_kind i) eqn:Ek; [|congruence|].
  - unfold sys_fstat, bind, get_fd. rewrite Ho1. rewrite Hi1. unfold ret. cbn [fd_of f_fd]. rewrite Ho1, Hi1, Ek.
    cbn [f_fd f_uid f_closefd f_readable f_writable f_append f_enforced f_spin].
    destruct (rk_append rk) eqn:Ea.
    + unfold raw_seek, check_closed, inner_seek, bind. cbn [f_closed fd_of f_fd].
      unfold ret. unfold sys_lseek, bind, get_fd. rewrite Ho1, Hi1, Ek. cbn [Z.eqb Pos.eqb].
      destruct (Z.ltb_spec (Z.of_nat (length (n_data i)) + 0) 0); [lia|].
      eexists. split; [unfold stream_of; rewrite Ek, Ea; reflexivity|]. split.
      * intros d. cbn. unfold upd. destruct (Z.eqb_spec fd d); [|reflexivity]. now rewrite Z.add_0_r.
      * reflexivity.
    + eexists. split; [unfold stream_of; rewrite Ek, Ea; reflexivity|]. split; [|reflexivity].
      intros d. cbn. unfold upd. destruct (fd =? d); [|reflexivity]. unfold o. now rewrite Hp.
  - unfold sys_fstat, bind, get_fd. rewrite Ho1. rewrite Hi1. unfold ret. cbn [fd_of f_fd]. rewrite Ho1, Hi1, Ek.
    cbn [f_fd f_uid f_closefd f_readable f_writable f_append f_enforced f_spin].
    assert (forall d, w_fds w1' d = if fd =? d then Some o else w_fds w1 d) as X.
    { intros d. cbn. unfold upd, o. rewrite Hp. destruct (fd =? d); [|reflexivity]. now destruct (rk_append rk). }
    destruct (rk_append rk) eqn:Ea.
    + unfold raw_seek, check_closed, inner_seek, bind. cbn [f_closed fd_of f_fd].
      unfold ret. unfold sys_lseek, bind, get_fd. rewrite Ho1, Hi1, Ek. unfold raise. cbn [Z.eqb Pos.eqb ESPIPE].
      eexists. split; [unfold stream_of; rewrite Ek, Ea; reflexivity|]. split; [exact X|reflexivity].
    + eexists. split; [unfold stream_of; rewrite Ek, Ea; reflexivity|]. split; [exact X|reflexivity].
Qed.

Inductive open_outcome (rk : raw_kwargs) (p : list ascii) (w : world) : res rawio -> world -> Prop :=
| OO_fail e io : incl io (w_io w) -> open_outcome rk p w (Err e) (set_io w io)
| OO_dir fd fds o i : w_newfd w = fd :: fds -> w_fds w fd = None -> w_names w p = Some (o_uid o) ->
    w_inodes w (o_uid o) = Some i -> n_kind i = KDir ->
    open_outcome rk p w (Err (EOS EISDIR)) (upd_fd (set_newfd (set_io w (tl (w_io w))) fds) fd (Some o))
| OO_ok w' fd o i : init_checks rk = Ok tt -> opened rk p w w' fd o i -> n_kind i <> KDir ->
    open_outcome rk p w (Ok (stream_of rk w fd o i)) w'.

Lemma set_io_id w : set_io w (w_io w) = w.
Proof. now destruct w. Qed.

Lemma raw_open_path rk p w r w' : by_path rk p -> raw_open rk w = (r, w') -> open_outcome rk p w r w'.
Proof.
  intros (Hp & Hf & Hh) H.
  assert (wraps rk = false) as Hw by (unfold wraps; rewrite Hf, Hh; reflexivity).
  destruct (init_checks rk) as [[]|e] eqn:Hck.
  2:{ unfold raw_open, raw_init in H. rewrite Hck in H. rewrite raw_close_unbuilt in H by reflexivity.
      injection H as <- <-. rewrite <- (set_io_id w) at 2. apply OO_fail, incl_refl. }
  destruct (flags_fields rk) as (F1 & F2 & F3 & F4 & F5 & F6 & F7).
  destruct (sys_open p (unix_open_flags rk) w) as [r1 w1] eqn:Es.
  pose proof (sys_open_cases _ _ _ _ _ F1 Es) as C.
  inversion C as [e io Hio Er Ew|fd fds u i Hfd Hnone Hn Hi Hx Hd He Er Ew|fd fds u us Hfd Hnone Hn Hni Hi Hc He Er Ew]; subst r1.
  - unfold raw_open, raw_init in H. rewrite Hck in H. unfold inner_create_streams in H. rewrite Hh, Hf, Hp, Es in H.
    rewrite raw_close_unbuilt in H by reflexivity. injection H as <- <-. rewrite <- Ew. now apply OO_fail.
  - destruct (n_kind i) eqn:Ek.
    2:{ unfold raw_open, raw_init in H. rewrite Hck in H. unfold inner_create_streams in H. rewrite Hh, Hf, Hp, Es in H.
        unfold sys_fstat, bind, get_fd in H. rewrite <- Ew in H. cbn [w_fds upd_fd set_fds] in H.
        rewrite upd_same in H by apply Z.eqb_refl. cbn [o_uid w_inodes upd_fd set_fds set_newfd set_io] in H.
        rewrite Hi, Ek in H. unfold ret in H. rewrite raw_close_unbuilt in H by reflexivity. injection H as <- <-.
        eapply OO_dir; eauto. }
    all: assert (n_kind i <> KDir) as Hk by congruence;
      edestruct (init_rest rk w w1 fd (mkOfd u 0 (of_rd (unix_open_flags rk)) (of_wr (unix_open_flags rk))
        (of_append (unix_open_flags rk)) (of_sync (unix_open_flags rk)) false) i) as (w2 & E2 & D2 & S2); eauto;
      [rewrite <- Ew; cbn; apply upd_same, Z.eqb_refl|rewrite <- Ew; exact Hi|rewrite <- Ew; reflexivity|];
      rewrite E2 in H; injection H as <- <-; apply OO_ok; auto;
      rewrite S2; rewrite <- Ew in *; cbn [o_uid o_rd o_wr o_app o_sync] in *;
      (constructor; cbn [w_newfd w_fds w_names w_inodes w_kern w_reg w_pid w_env w_clock w_opts w_blk w_io set_fds upd_fd
          set_newfd set_io o_uid o_rd o_wr o_app o_sync o_inh o_pos] in *; auto;
        [rewrite D2; now rewrite Z.eqb_refl
        |intros d Hne; rewrite D2; unfold upd; destruct (Z.eqb_spec fd d); [congruence|reflexivity]
        |left; split; [exact Hn|]; split; [exact Hi|]; split; [|auto];
         rewrite F6, F7 in Hx; destruct (rk_must_create rk), (rk_must_not_create rk); try discriminate; intros []; discriminate]).
  - edestruct (init_rest rk w w1 fd (mkOfd u 0 (of_rd (unix_open_flags rk)) (of_wr (unix_open_flags rk))
        (of_append (unix_open_flags rk)) (of_sync (unix_open_flags rk)) false) (mkIno KReg [] true)) as (w2 & E2 & D2 & S2); eauto;
      [rewrite <- Ew; cbn; apply upd_same, Z.eqb_refl|rewrite <- Ew; cbn; apply upd_same, P_Raw.uid_eqb_refl|discriminate|rewrite <- Ew; reflexivity|].
    rewrite E2 in H. injection H as <- <-. apply OO_ok; auto; [|discriminate].
    rewrite S2. rewrite <- Ew in *. cbn [o_uid o_rd o_wr o_app o_sync] in *.
    constructor; cbn [w_newfd w_fds w_names w_inodes w_kern w_reg w_pid w_env w_clock w_opts w_blk w_io set_fds upd_fd upd_ino
          set_inodes set_newino set_names set_newfd set_io o_uid o_rd o_wr o_app o_sync o_inh o_pos] in *; auto.
    + rewrite D2. now rewrite Z.eqb_refl.
    + intros d Hne. rewrite D2. unfold upd. destruct (Z.eqb_spec fd d); [congruence|reflexivity].
    + apply upd_same. now apply str_eqb_spec.
    + intros n Hne. apply upd_other. destruct (names_eqb p n) eqn:X; [|reflexivity]. apply str_eqb_spec in X. congruence.
    + apply upd_same, P_Raw.uid_eqb_refl.
    + intros v Hv. apply upd_other. apply P_Raw.uid_eqb_neq. congruence.
    + right. split; [exact Hn|]. split; [|split; [exact Hi|reflexivity]]. rewrite F6 in Hc. now apply negb_true_iff in Hc.
Qed.

(** Wrapping a descriptor changes no file and no directory entry. *)
Lemma raw_open_wrap rk w r w' : (forall p, ~ by_path rk p) -> raw_open rk w = (r, w') ->
  w_inodes w' = w_inodes w /\ w_names w' = w_names w /\ w_env w' = w_env w.
Proof.
  intros Hn H.
  set (same := fun w' : world => w_inodes w' = w_inodes w /\ w_names w' = w_names w /\ w_env w' = w_env w).
  assert (forall f w1 w2 r2, same w1 -> raw_close f w1 = (r2, w2) -> same w2) as Hclose.
  { intros f w1 w2 r2 (A & B & C) Hc. apply raw_close_kept in Hc. destruct Hc. unfold same. repeat split; congruence. }
  assert (forall fd w1 w2 r2, same w1 -> sys_fstat fd w1 = (r2, w2) -> w2 = w1) as Hstat.
  { intros fd w1 w2 r2 _. unfold sys_fstat, bind. destruct (get_fd fd w1) as [r3 w3] eqn:E.
    apply get_fd_cases in E. destruct E as [-> [->|(o & i & _ & _ & ->)]]; now intros [= <- <-]. }
  assert (same w) as S0 by (unfold same; auto).
  change (same w'). unfold raw_open in H.
  assert (exists rr f w1, raw_init rk w = (rr, f, w1) /\ same w1) as (rr & f & w1 & Ei & S1).
  2:{ rewrite Ei in H. destruct rr; injection H as <- <-; auto.
      destruct (raw_close f w1) as [r2 w2] eqn:Ec. cbn. eapply Hclose; eauto. }
  clear H. unfold raw_init. destruct (init_checks rk) eqn:Ec; [|eauto 6].
  assert (exists rr f w1, inner_create_streams
    (mkRio None None false (rk_closefd rk) (rk_read rk) (rk_write rk || rk_append rk) (rk_append rk) false
       (opt_enforced (w_opts w)) (opt_spin (w_opts w))) rk w = (rr, f, w1) /\ w1 = w) as (rr & f & w1 & Ei & ->).
  { assert (forall fd, exists rr f w1, (match sys_fstat fd w with
      | (Ok (u, _, _), w') => (Ok tt, mkRio (Some fd) (Some u) false (rk_closefd rk) (rk_read rk) (rk_write rk || rk_append rk) (rk_append rk) false
       (opt_enforced (w_opts w)) (opt_spin (w_opts w)), w')
      | (Err e, w') => (Err e, mkRio (Some fd) None false (rk_closefd rk) (rk_read rk) (rk_write rk || rk_append rk) (rk_append rk) false
       (opt_enforced (w_opts w)) (opt_spin (w_opts w)), w') end) = (rr, f, w1) /\ w1 = w) as Hfin.
    { intros fd. destruct (sys_fstat fd w) as [r3 w3] eqn:E. pose proof (Hstat _ _ _ _ S0 E) as ->.
      destruct r3 as [[[u k] n]|e]; eauto 8. }
    unfold inner_create_streams. destruct (rk_handle rk) as [h|] eqn:Eh; [exact (Hfin h)|].
    destruct (rk_fileno rk) as [n|] eqn:En; [exact (Hfin n)|].
    destruct (rk_path rk) as [|p|z] eqn:Ep; eauto 8. exfalso. apply (Hn p). repeat split; auto. }
  cbv zeta. rewrite Ei. destruct rr as [[]|e]; [|eauto 6].
  destruct (sys_fstat (fd_of f) w) as [r3 w3] eqn:E. pose proof (Hstat _ _ _ _ S0 E) as ->.
  destruct r3 as [[[u k] n]|e]; [|eauto 6].
  destruct (match k with KDir => true | _ => false end) eqn:Ek.
  { destruct k; try discriminate. destruct (wraps rk); eauto 6. }
  set (f2 := mkRio _ _ _ _ _ _ _ _ _ _).
  assert (exists rr ff w1, (if rk_append rk then
                match raw_seek f2 0 2 w with
                | (Ok _, w3) => (Ok tt, f2, w3)
                | (Err (EOS e), w3) => if e =? ESPIPE then (Ok tt, f2, w3) else (Err (EOS e), f2, w3)
                | (Err e, w3) => (Err e, f2, w3)
                end
              else (Ok tt, f2, w)) = (rr, ff, w1) /\ same w1) as X.
  { destruct (rk_append rk); [|eauto 6].
    destruct (raw_seek f2 0 2 w) as [r4 w4] eqn:Ek4.
    assert (same w4) as S4.
    { unfold raw_seek, check_closed, bind in Ek4. destruct (f_closed f2); [injection Ek4 as <- <-; exact S0|].
      unfold ret, inner_seek, sys_lseek, bind in Ek4. destruct (get_fd (fd_of f2) w) as [r5 w5] eqn:E5.
      apply get_fd_cases in E5. destruct E5 as [-> [->|(o & i & Ho & Hi & ->)]]; [injection Ek4 as <- <-; exact S0|].
      cbn [Z.eqb Pos.eqb] in Ek4. destruct (n_kind i); try (injection Ek4 as <- <-; exact S0);
        (destruct (_ <? 0); injection Ek4 as <- <-; exact S0). }
    destruct r4 as [z|[]]; eauto 6. destruct (errno =? ESPIPE); eauto 6. }
  destruct X as (rr & ff & w4 & X1 & X2). exists rr, ff, w4. split; [|exact X2].
  destruct k; try discriminate Ek; exact X1.
Qed.

(** Opening changes no existing file. *)
Lemma raw_open_files rk w r w' : raw_open rk w = (r, w') ->
  w_env w' = w_env w /\ forall v i, w_inodes w v = Some i -> w_inodes w' v = Some i.
Proof.
  intros H. destruct (rk_handle rk) eqn:Eh.
  { apply raw_open_wrap in H; [|intros p (_ & _ & X); congruence]. destruct H as (-> & _ & ->). auto. }
  destruct (rk_fileno rk) eqn:Ef.
  { apply raw_open_wrap in H; [|intros p (_ & X & _); congruence]. destruct H as (-> & _ & ->). auto. }
  destruct (rk_path rk) as [|p|z] eqn:Ep.
  1,3: apply raw_open_wrap in H; [|intros p (X & _ & _); congruence]; destruct H as (-> & _ & ->); auto.
  apply (raw_open_path rk p) in H; [|repeat split; auto].
  inversion H as [e io Hio|fd fds o i Hfd Hno Hn Hi Hk|w1 fd o i Hck Ho Hk]; subst; auto.
  destruct Ho. split; [auto|]. intros v j Hv. destruct (uid_dec v (o_uid o)) as [->|Hne].
  - destruct op_how0 as [(_ & X & _)|(_ & _ & X & _)]; congruence.
  - now rewrite op_inos0.
Qed.

(** * Arguments *)
Lemma parse_mode_fields py_u name mode fileno handle closefd rk ek :
  parse_mode py_u name mode fileno handle closefd = Ok (rk, ek) ->
  rk_handle rk = handle /\ rk_closefd rk = closefd
  /\ ((rk_path rk = name /\ rk_fileno rk = fileno)
      \/ exists n, name = NInt n /\ fileno = None /\ rk_path rk = NNone /\ rk_fileno rk = Some n).
Proof.
  unfold parse_mode. destruct (str_eqb _ _).
  - unfold parse_standard_args.
    repeat match goal with |- (if ?x then _ else _) = _ -> _ => destruct x; [discriminate|] end.
    destruct name as [|p|n]; [| |destruct fileno; [discriminate|]]; intros [= <- <-]; cbn; eauto 8.
  - destruct (str_eqb _ _); [|discriminate]. unfold parse_advanced_args.
    destruct (_ || _); [discriminate|]. intros [= <- <-]; cbn; auto.
Qed.

Lemma prelude_fields py_u a rk ek :
  rsopen_prelude py_u (a_name a) (a_mode a) (a_fileno a) (a_handle a) (a_closefd a)
          (a_opener a) (a_thread_safe a) (a_mutex a) (a_enc a) (a_errs a) (a_nl a) = Ok (rk, ek) ->
  (forall p, asks_path a p -> by_path rk p /\ rk_closefd rk = a_closefd a)
  /\ (forall d, given a d -> d <> 0 ->
        (exists n, (rk_fileno rk = Some n \/ rk_handle rk = Some n) /\ n <> 0) \/ exists n, rk_path rk = NInt n).
Proof.
  unfold rsopen_prelude. destruct (_ && _); [discriminate|].
  destruct (parse_mode _ _ _ _ _ _) as [[rk0 ek0]|e] eqn:Ep; [|discriminate].
  destruct (parse_mode_fields _ _ _ _ _ _ _ _ Ep) as (P1 & P2 & P3).
  intros H.
  match type of H with match ?x with _ => _ end = _ => destruct x as [rk1|e1] eqn:E1; [|discriminate] end.
  repeat match type of H with (if ?x then _ else _) = _ => destruct x; [discriminate|] end.
  injection H as <- _. split.
  - intros p (A1 & A2 & A3 & A4). rewrite A4 in E1. injection E1 as <-. rewrite P2. split; auto.
    destruct P3 as [[P3 P4]|(n & X & _)]; [|congruence]. repeat split; congruence.
  - intros d Hd Hnz. unfold given in Hd. destruct (a_opener a) as [fd|] eqn:Eop.
    + destruct (truthy (rk_fileno rk0)) eqn:Et; [discriminate|]. destruct (fd <? 0); [discriminate|].
      injection E1 as <-. cbn [rk_fileno rk_handle rk_path]. left. exists fd. split; auto. congruence.
    + injection E1 as <-. destruct Hd as [Hd|[Hd|Hd]].
      * left. exists d. split; auto. destruct P3 as [[_ P4]|(n & X & Y & _)]; [|congruence]. left. congruence.
      * left. exists d. split; auto. right. congruence.
      * destruct P3 as [[P3 P4]|(n & X & Y & Y1 & Y2)]; [right; exists d; congruence|].
        left. exists n. split; auto. congruence.
Qed.

(** * The try block *)
Lemma isatty_world f w r w' : raw_isatty f w = (r, w') -> w' = w.
Proof.
  unfold raw_isatty, bind, check_closed. destruct (f_closed f); [now intros [= <- <-]|].
  unfold ret, raise. destruct (fd_of f =? 0); now intros [= <- <-].
Qed.
Lemma buffer_size_world f b w r w' : buffer_size f b w = (r, w') -> w' = w.
Proof.
  unfold buffer_size. destruct (b <? 0); [|now intros [= <- <-]].
  destruct (fd_of f =? 0); [now intros [= <- <-]|]. destruct (w_fds w (fd_of f)); now intros [= <- <-].
Qed.
Lemma make_buffer_world f w r w' : make_buffer f w = (r, w') -> w' = w.
Proof.
  unfold make_buffer, check_seekable, check_closed, bind, ret, raise.
  destruct (f_readable f && f_writable f); [destruct (f_closed f); [|destruct (f_seekable f)]; now intros [= <- <-]|].
  destruct (f_writable f); [now intros [= <- <-]|]. destruct (f_readable f); now intros [= <- <-].
Qed.
Lemma tell_inodes f w r w' : raw_tell f w = (r, w') -> w_inodes w' = w_inodes w.
Proof.
  unfold raw_tell, check_closed, bind. destruct (f_closed f); [now intros [= <- <-]|].
  unfold ret, inner_tell, sys_lseek, bind. destruct (get_fd (fd_of f) w) as [r1 w1] eqn:E.
  apply get_fd_cases in E. destruct E as [-> [->|(o & i & Ho & Hi & ->)]]; [now intros [= <- <-]|].
  cbn [Z.eqb Pos.eqb]. destruct (n_kind i); try (now intros [= <- <-]);
    (destruct (_ <? 0); now intros [= <- <-]).
Qed.
Lemma make_text_world f t w r w' : make_text f t w = (r, w') -> rawf (fd_of f) w w' /\ w_inodes w' = w_inodes w.
Proof.
  unfold make_text. destruct t; [intros [= <- <-]; split; [apply rawf_refl|auto]|].
  destruct (_ && _); [|intros [= <- <-]; split; [apply rawf_refl|auto]].
  unfold bind. destruct (raw_tell f w) as [r1 w1] eqn:E. intros H.
  assert (w' = w1) as -> by (destruct r1; now injection H).
  split; [eapply raw_tell_within; eauto|eapply tell_inodes; eauto].
Qed.

(** Everything after the lock and the truncation. *)
Definition open_tail (a : openargs) (ek : ext_kwargs) (f : rawio) : M stream :=
  let b0 := match a_buffering a with None => -1 | Some b => b end in
  line <- (if b0 =? 1 then ret true
           else if b0 <? 0 then raw_isatty f
           else ret false) ;;
  b <- buffer_size f (if line : bool then -1 else b0) ;;
  if b <? 0 then raise EAssert
  else if b =? 0 then
    (if ek_binary ek then ret (mkStream f LRaw 0 false false (a_thread_safe a))
     else raise EBadValue)
  else
    l <- make_buffer f ;;
    if ek_binary ek then ret (mkStream f l b false false (a_thread_safe a))
    else
      make_text f (a_text_error a) ;;
      ret (mkStream f l b true line (a_thread_safe a)).

Lemma open_tail_world a ek f w r w' : open_tail a ek f w = (r, w') ->
  rawf (fd_of f) w w' /\ w_inodes w' = w_inodes w.
Proof.
  unfold open_tail. set (b0 := match a_buffering a with None => -1 | Some b => b end). cbv zeta. unfold bind at 1.
  match goal with |- (match ?x with _ => _ end) = _ -> _ => destruct x as [r1 w1] eqn:E1 end.
  assert (w1 = w) as ->.
  { destruct (b0 =? 1); [now injection E1|]. destruct (b0 <? 0); [eapply isatty_world; eauto|now injection E1]. }
  assert (rawf (fd_of f) w w /\ w_inodes w = w_inodes w) as S0 by (split; [apply rawf_refl|reflexivity]).
  destruct r1 as [line|]; [|intros [= <- <-]; exact S0].
  unfold bind at 1. destruct (buffer_size f _ w) as [r2 w2] eqn:E2. apply buffer_size_world in E2. subst w2.
  destruct r2 as [b|]; [|intros [= <- <-]; exact S0].
  destruct (b <? 0); [intros [= <- <-]; exact S0|].
  destruct (b =? 0); [destruct (ek_binary ek); intros [= <- <-]; exact S0|].
  unfold bind at 1. destruct (make_buffer f w) as [r3 w3] eqn:E3. apply make_buffer_world in E3. subst w3.
  destruct r3 as [l|]; [|intros [= <- <-]; exact S0].
  destruct (ek_binary ek); [intros [= <- <-]; exact S0|].
  unfold bind. destruct (make_text f (a_text_error a) w) as [r4 w4] eqn:E4. apply make_text_world in E4.
  destruct r4; intros [= <- <-]; exact E4.
Qed.

Inductive body_outcome (a : openargs) (ek : ext_kwargs) (f : rawio) (w : world) : res stream -> world -> Prop :=
| BO_lock e w' : f_seekable f = true -> a_locking a = true ->
    raw_lock_file f (a_timeout a) PNone PNone 0 SNone w = (Err e, w') -> body_outcome a ek f w (Err e) w'
| BO_locked w1 w2 w' r : f_seekable f = true -> a_locking a = true ->
    raw_lock_file f (a_timeout a) PNone PNone 0 SNone w = (Ok (None, 0), w1) ->
    rawf (fd_of f) w1 w2 -> rawf (fd_of f) w2 w' -> w_inodes w' = w_inodes w2 ->
    (ek_truncate ek = false \/ f_writable f = false -> w_inodes w2 = w_inodes w1) -> body_outcome a ek f w r w'
| BO_unlocked w2 w' r : f_seekable f = false \/ a_locking a = false ->
    rawf (fd_of f) w w2 -> rawf (fd_of f) w2 w' -> w_inodes w' = w_inodes w2 ->
    (ek_truncate ek = false \/ f_writable f = false \/ f_seekable f = false -> w_inodes w2 = w_inodes w) ->
    body_outcome a ek f w r w'.

Lemma truncate_stage ek f w r w' :
  (if ek_truncate ek then raw_truncate f (Some 0) ;; ret tt else ret tt) w = (r, w') ->
  rawf (fd_of f) w w' /\ (ek_truncate ek = false \/ f_writable f = false -> w_inodes w' = w_inodes w).
Proof.
  destruct (ek_truncate ek) eqn:Ek; [|intros [= <- <-]; split; [apply rawf_refl|auto]].
  unfold bind at 1. destruct (raw_truncate f (Some 0) w) as [r1 w1] eqn:E. intros H.
  assert (w' = w1) as -> by (destruct r1; now injection H).
  split; [eapply raw_truncate_within; eauto|]. intros [X|X]; [discriminate|].
  unfold raw_truncate, bind, check_seekable, check_writable, bind, check_closed in E.
  destruct (f_closed f); [now injection E as <- <-|]. unfold ret, raise in E.
  destruct (f_seekable f); [|now injection E as <- <-]. rewrite X in E. now injection E as <- <-.
Qed.

Lemma open_body_cases a ek f w r w' : open_body a ek f w = (r, w') -> body_outcome a ek f w r w'.
Proof.
  unfold open_body.
  intros H. unfold bind at 1 in H.
  match type of H with (match ?x with _ => _ end) = _ => destruct x as [r0 w0] eqn:E0 end.
  change (match r0 with Ok _ => open_tail a ek f w0 | Err e => (Err e, w0) end = (r, w')) in H.
  assert (rawf (fd_of f) w0 w' /\ w_inodes w' = w_inodes w0) as [T1 T2].
  { destruct r0; [eapply open_tail_world; eauto|]. injection H as <- <-. split; [apply rawf_refl|auto]. }
  destruct (f_seekable f) eqn:Es.
  2:{ injection E0 as <- <-. eapply BO_unlocked with (w2 := w); eauto using rawf_refl. }
  destruct (a_locking a) eqn:El.
  - unfold bind at 1 2 in E0.
    destruct (raw_lock_file f (a_timeout a) PNone PNone 0 SNone w) as [[[len off]|e] w1] eqn:Ek.
    + assert (len = None /\ off = 0) as [-> ->].
      { rewrite C21_lock_file_default_share in Ek. apply C21_lock_file_obtains in Ek.
        destruct Ek as (-> & [[_ ->]|(o & i & _ & _ & [[X _]|[X _]])] & _); auto; discriminate. }
      unfold ret at 1 in E0. apply truncate_stage in E0. destruct E0 as [A B]. eapply BO_locked; eauto.
    + unfold ret in E0. injection E0 as <- <-. injection H as <- <-. now apply BO_lock.
  - unfold bind at 1 in E0. unfold ret at 1 in E0. apply truncate_stage in E0. destruct E0 as [A B].
    eapply BO_unlocked with (w2 := w0); eauto. intros [X|[X|X]]; auto. congruence.
Qed.

Lemma open_wrap_cases a ek f w r w' : open_wrap a ek f w = (r, w') ->
  exists r1 w1, open_body a ek f w = (r1, w1)
    /\ ((r = r1 /\ w' = w1 /\ (r1 = Err EHang \/ exists s, r1 = Ok s))
        \/ exists e r2, r1 = Err e /\ e <> EHang /\ raw_close f w1 = (r2, w') /\ exists e', r = Err e').
Proof.
  unfold open_wrap. destruct (open_body a ek f w) as [[s|e] w1].
  - intros [= <- <-]. do 2 eexists. split; [reflexivity|]. left. eauto.
  - intros H. do 2 eexists. split; [reflexivity|].
    assert (e = EHang \/ e <> EHang) as [->|He] by (destruct e; (left; reflexivity) || (right; discriminate)).
    + injection H as <- <-. auto.
    + right. exists e. destruct (raw_close f w1) as [r2 w2] eqn:Ec. exists r2.
      assert (match r2 with Ok _ => (Err e, w2) | Err e' => (Err e', w2) end = (r, w')) as H'.
      { destruct e; try congruence; destruct r2; exact H. }
      destruct r2; injection H' as <- <-; eauto 10.
Qed.

(** A stream just opened is on its file. *)
Lemma fstat_ok fd w u k n w' : sys_fstat fd w = (Ok (u, k, n), w') ->
  w' = w /\ exists o i, w_fds w fd = Some o /\ o_uid o = u /\ w_inodes w u = Some i /\ n_kind i = k.
Proof.
  unfold sys_fstat, bind. destruct (get_fd fd w) as [r1 w1] eqn:E. apply get_fd_cases in E.
  destruct E as [-> [->|(o & i & Ho & Hi & ->)]]; [discriminate|]. intros [= <- <- <- <-]. split; auto.
  exists o, i. auto.
Qed.
Lemma raw_open_shape rk w f w' : raw_open rk w = (Ok f, w') ->
  exists u fd o i, f_uid f = Some u /\ f_fd f = Some fd /\ f_closed f = false /\ f_closefd f = rk_closefd rk
    /\ w_fds w' fd = Some o /\ o_uid o = u /\ w_inodes w' u = Some i
    /\ f_seekable f = (match n_kind i with KReg => true | _ => false end).
Proof.
  unfold raw_open. destruct (raw_init rk w) as [[[[]|e] f1] w1] eqn:Ei; [|discriminate]. intros [= -> ->].
  unfold raw_init in Ei. destruct (init_checks rk); [|discriminate]. cbv zeta in Ei.
  set (f0 := mkRio None _ _ _ _ _ _ _ _ _) in Ei.
  destruct (inner_create_streams f0 rk w) as [[[[]|e] f1] w1] eqn:Ec; [|discriminate].
  assert (exists fd u, f_fd f1 = Some fd /\ f_uid f1 = Some u /\ f_closefd f1 = rk_closefd rk
    /\ exists o, w_fds w1 fd = Some o /\ o_uid o = u) as (fd & u & F1 & F2 & F3 & o & F4 & F5).
  { assert (forall fd w2, (match sys_fstat fd w2 with
      | (Ok (u, _, _), w') => (Ok tt, mkRio (Some fd) (Some u) (f_closed f0) (f_closefd f0) (f_readable f0) (f_writable f0) (f_append f0)
          (f_seekable f0) (f_enforced f0) (f_spin f0), w')
      | (Err e, w') => (Err e, mkRio (Some fd) None (f_closed f0) (f_closefd f0) (f_readable f0) (f_writable f0) (f_append f0)
          (f_seekable f0) (f_enforced f0) (f_spin f0), w') end) = (Ok tt, f1, w1) ->
      exists fd u, f_fd f1 = Some fd /\ f_uid f1 = Some u /\ f_closefd f1 = rk_closefd rk
        /\ exists o, w_fds w1 fd = Some o /\ o_uid o = u) as Hfin.
    { intros fd w2. destruct (sys_fstat fd w2) as [[[[u k] n]|e] w3] eqn:E; [|discriminate].
      apply fstat_ok in E. destruct E as (-> & o & i & A & B & C & D). intros [= <- <-]. cbn. eauto 10. }
    unfold inner_create_streams in Ec.
    destruct (rk_handle rk) as [h|]; [eapply Hfin; eauto|]. destruct (rk_fileno rk) as [n|]; [eapply Hfin; eauto|].
    destruct (rk_path rk) as [|p|z]; try discriminate.
    destruct (sys_open p (unix_open_flags rk) w) as [[fd|e] w2]; [|discriminate].
    destruct (sys_fstat fd w2) as [[[[u k] n]|e] w3] eqn:E; [|discriminate].
    apply fstat_ok in E. destruct E as (-> & _).
    destruct k; try discriminate; destruct (sys_set_inheritable fd (rk_inheritable rk) w2) as [[[]|e] w4]; try discriminate;
      eapply Hfin; eauto. }
  destruct (sys_fstat (fd_of f1) w1) as [[[[u' k] n]|e] w2] eqn:Es; [|discriminate].
  apply fstat_ok in Es. destruct Es as (-> & o' & i & G1 & G2 & G3 & G4).
  assert (fd_of f1 = fd) as X by (unfold fd_of; now rewrite F1). rewrite X in *.
  assert (o' = o) as -> by congruence. assert (u' = u) as -> by congruence.
  destruct (match k with KDir => true | _ => false end) eqn:Ek.
  { destruct k; try discriminate. destruct (wraps rk); discriminate. }
  set (f2 := mkRio (f_fd f1) _ _ _ _ _ _ _ _ _) in Ei.
  assert ((if rk_append rk then
                match raw_seek f2 0 2 w1 with
                | (Ok _, w3) => (Ok tt, f2, w3)
                | (Err (EOS e), w3) => if e =? ESPIPE then (Ok tt, f2, w3) else (Err (EOS e), f2, w3)
                | (Err e, w3) => (Err e, f2, w3)
                end
              else (Ok tt, f2, w1)) = (Ok tt, f, w')) as Y by (destruct k; try discriminate Ek; exact Ei).
  clear Ei.
  assert (f = f2 /\ rawf (fd_of f2) w1 w') as [-> R].
  { destruct (rk_append rk); [|injection Y as <- <-; split; [auto|apply rawf_refl]].
    destruct (raw_seek f2 0 2 w1) as [r4 w4] eqn:E4. apply raw_seek_within in E4.
    destruct r4 as [z|[]]; try discriminate Y; [injection Y as <- <-; auto|].
    destruct (errno =? ESPIPE); [injection Y as <- <-; auto|discriminate]. }
  assert (fd_of f2 = fd) as X2 by (unfold fd_of; cbn; now rewrite F1). rewrite X2 in R.
  pose proof (rf_fd _ _ _ R) as S1. rewrite F4 in S1. cbn in S1. destruct (w_fds w' fd) as [o2|] eqn:E2; [|contradiction].
  pose proof (rf_kind _ _ _ R u) as S2. rewrite G3 in S2. cbn in S2.
  destruct (w_inodes w' u) as [i2|] eqn:Ei2; [|discriminate]. injection S2 as S2.
  exists u, fd, o2, i2. cbn [f2 f_uid f_fd f_closed f_closefd f_seekable]. rewrite S2, G4. destruct S1 as [S1 _].
  repeat split; auto; congruence.
Qed.
