(** C61: what becomes of a descriptor given to rsopen. *)
From Coq Require Import ZArith Ascii String List Bool Lia.
From Verif Require Import M_Base M_Modes M_Registry M_Kernel M_World M_Raw M_Open S_Modes S_Locks S_LockFile S_Open S_Args S_Demo
  P_Raw P_Registry P_Kernel P_Lock P_LockFile P_Close P_Frame P_Open C_Lock C_Open C_Args.
Import ListNotations.
Open Scope string_scope.
Open Scope Z_scope.

(** [d] is not the descriptor of a stream closed before, whose closing is put off. *)
Definition quiet (d : Z) (w : world) : Prop := forall v, ~ In d (pending w v).

Lemma quiet_reg d w r : r_pid r = w_pid w -> (forall v, ~ In d (data_of r v)) -> quiet d (set_reg w r).
Proof. intros P H v. rewrite pending_set_reg by auto. apply H. Qed.
Lemma pid_registry w : r_pid (registry_of w) = w_pid w.
Proof. unfold registry_of, check_forking. destruct (Z.eqb_spec (w_pid w) (r_pid (w_reg w))); auto. Qed.
Lemma data_registry w v : data_of (registry_of w) v = pending w v.
Proof. reflexivity. Qed.

Lemma close_all_keeps d : forall fds w r w', close_all fds w = (r, w') -> ~ In d fds ->
  w_fds w' d = w_fds w d /\ w_reg w' = w_reg w /\ w_pid w' = w_pid w.
Proof.
  induction fds as [|fd fds IH]; intros w r w'; cbn [close_all].
  - intros [= <- <-]. auto.
  - unfold bind, sys_close. intros H Hn. destruct (w_fds w fd) as [o|].
    + apply IH in H; [|intros X; apply Hn; now right]. destruct H as (H1 & H2 & H3). rewrite H1, H2, H3. split; [|auto].
      cbn. apply upd_other. apply Z.eqb_neq. intros ->. apply Hn. now left.
    + injection H as <- <-. auto.
Qed.
Lemma purge_keeps_fd d u w r w' : purge_pending u w = (r, w') -> quiet d w -> w_fds w' d = w_fds w d /\ quiet d w'.
Proof.
  intros H Q. unfold purge_pending, unique_id_has_locks, remove_unique_id_data in H.
  fold (registry_of w) in H. rewrite (check_forking_registry w) in H.
  destruct (r_map (registry_of w) u) as [e|] eqn:Ee.
  - destruct (negb (is_nil (e_locks e))).
    + injection H as <- <-. split; auto. apply quiet_reg; [apply pid_registry|]. intros v. rewrite data_registry. apply Q.
    + set (reg := reg_set _ _ _) in H.
      destruct (close_all (e_data e) (set_reg w reg)) as [r1 w1] eqn:Ec.
      assert (w' = w1) as -> by (destruct r1; now injection H).
      assert (~ In d (e_data e)) as Hn by (specialize (Q u); unfold pending in Q; now rewrite Ee in Q).
      destruct (close_all_keeps d _ _ _ _ Ec Hn) as (H1 & H2 & H3). split; [rewrite H1; reflexivity|].
      assert (quiet d (set_reg w reg)) as Q1.
      { apply quiet_reg; [apply pid_registry|]. intros v. unfold data_of, reg. destruct (uid_dec u v) as [<-|Hv].
        - rewrite reg_set_eq. intros [].
        - rewrite reg_set_neq by auto. apply Q. }
      intros v. specialize (Q1 v). unfold pending, registry_of in *. rewrite H2, H3. exact Q1.
  - cbn [close_all] in H. injection H as <- <-. split; auto. apply quiet_reg; [apply pid_registry|]. intros v. apply Q.
Qed.
Lemma quiet_of d w w' : w_reg w' = w_reg w -> w_pid w' = w_pid w -> quiet d w -> quiet d w'.
Proof. intros H1 H2 Q v. specialize (Q v). unfold pending, registry_of in *. now rewrite H1, H2. Qed.

Lemma sys_unlock_fds fd off n w r w' : sys_unlock fd off n w = (r, w') ->
  w_fds w' = w_fds w /\ w_reg w' = w_reg w /\ w_pid w' = w_pid w.
Proof.
  unfold sys_unlock, bind, get_fd. destruct (w_fds w fd) as [o|]; [|intros [= <- <-]; auto].
  destruct (w_inodes w (o_uid o)) as [i|]; [|intros [= <- <-]; auto].
  rewrite next_io_eq. destruct (hd IoFull (w_io w)); try (intros [= <- <-]; auto; fail);
    (destruct (off <? 0); intros [= <- <-]; auto).
Qed.
Lemma unlock_each_keeps d f : forall l w r w', unlock_each f l w = (r, w') -> quiet d w -> w_fds w' d = w_fds w d /\ quiet d w'.
Proof.
  induction l as [|lk l IH]; intros w r w'; cbn [unlock_each]; [intros [= <- <-]; auto|].
  unfold bind at 1. destruct (inner_file_unlock _ _ _ w) as [r1 w1] eqn:E. intros H Q.
  assert (w_fds w1 d = w_fds w d /\ quiet d w1) as [F1 Q1].
  { unfold inner_file_unlock, finally, bind in E.
    match type of E with context [sys_unlock ?a ?b ?c w] => destruct (sys_unlock a b c w) as [r2 w2] eqn:E2 end.
    apply sys_unlock_fds in E2. destruct E2 as (A & B & C).
    destruct (purge_pending (uid_of f) w2) as [r3 w3] eqn:E3.
    assert (w1 = w3) as -> by (destruct r3; now injection E).
    apply (purge_keeps_fd d) in E3; [|eapply quiet_of; eauto]. rewrite A in E3. exact E3. }
  destruct r1.
  - destruct (IH _ _ _ H Q1) as [F2 Q2]. split; auto. congruence.
  - injection H as <- <-. auto.
Qed.

(** Closing a stream that does not own its descriptor leaves the descriptor as it is. *)
Lemma close_not_owner d f w r w' : raw_close f w = (r, w') -> f_closefd f = false -> quiet d w ->
  w_fds w' d = w_fds w d /\ quiet d w'.
Proof.
  unfold raw_close. intros H C Q. destruct (f_closed f); [injection H as <- <-; auto|].
  unfold bind in H. unfold inner_close_streams in H. rewrite C in H.
  destruct (f_uid f) as [u|]; [|injection H as <- <-; auto].
  destruct (f_fd f) as [fd|]; [|injection H as <- <-; auto].
  destruct (remove_file_locks (w_pid w) (w_reg w) u fd) as [l reg] eqn:Er.
  assert (quiet d (set_reg w reg)) as Q1.
  { unfold remove_file_locks in Er. fold (registry_of w) in Er.
    destruct (r_map (registry_of w) u) as [e|] eqn:Ee; injection Er as <- <-; apply quiet_reg; try apply pid_registry; intros v.
    - unfold data_of. destruct (uid_dec u v) as [<-|Hv].
      + rewrite reg_set_eq. cbn [e_data]. specialize (Q u). unfold pending in Q. now rewrite Ee in Q.
      + rewrite reg_set_neq by auto. apply Q.
    - apply Q. }
  destruct (unlock_each f l (set_reg w reg)) as [r1 w1] eqn:Eu.
  destruct (unlock_each_keeps d _ _ _ _ _ Eu Q1) as [F2 Q2].
  destruct r1; injection H as <- <-; auto.
Qed.

(** Wrapping: the stream, also when the constructor raises. *)
Lemma raw_init_wrapped rk w rr f w1 d : raw_init rk w = (rr, f, w1) ->
  rk_handle rk = Some d \/ (rk_handle rk = None /\ rk_fileno rk = Some d) ->
  rawf d w w1 /\ (f_closefd f = rk_closefd rk \/ f_closefd f = false)
  /\ (forall o i, d <> 0 -> init_checks rk = Ok tt -> w_fds w d = Some o -> w_inodes w (o_uid o) = Some i -> n_kind i = KDir ->
        rr = Err (EOS EISDIR) /\ f_closefd f = false /\ w1 = w)
  /\ (init_checks rk <> Ok tt -> w1 = w /\ f_uid f = None).
Proof.
  intros H Hd. unfold raw_init in H. cbv zeta in H.
  set (f0 := mkRio None _ _ _ _ _ _ _ _ _) in H.
  destruct (init_checks rk) as [[]|e].
  2:{ injection H as <- <- <-. split; [apply rawf_refl|]. split; [now left|]. split; [discriminate|]. auto. }
  assert (inner_create_streams f0 rk w = (match sys_fstat d w with
      | (Ok (u, _, _), w') => (Ok tt, mkRio (Some d) (Some u) (f_closed f0) (f_closefd f0) (f_readable f0) (f_writable f0) (f_append f0)
          (f_seekable f0) (f_enforced f0) (f_spin f0), w')
      | (Err e, w') => (Err e, mkRio (Some d) None (f_closed f0) (f_closefd f0) (f_readable f0) (f_writable f0) (f_append f0)
          (f_seekable f0) (f_enforced f0) (f_spin f0), w') end)) as Ef.
  { unfold inner_create_streams. destruct Hd as [Hd|[Hh Hd]]; [rewrite Hd|rewrite Hh, Hd]; reflexivity. }
  rewrite Ef in H. clear Ef.
  destruct (sys_fstat d w) as [[[[u k] n]|e] w3] eqn:E.
  2:{ assert (w3 = w /\ (w_fds w d = None \/ exists o, w_fds w d = Some o /\ w_inodes w (o_uid o) = None)) as [-> X].
      { unfold sys_fstat, bind, get_fd in E. destruct (w_fds w d) as [o|]; [|injection E as <- <-; auto].
        destruct (w_inodes w (o_uid o)) eqn:Ei; [discriminate|]. injection E as <- <-. eauto. }
      injection H as <- <- <-. split; [apply rawf_refl|]. split; [now left|]. split; [|tauto].
      intros o i _ _ Ho Hi _. destruct X as [X|(o' & X & Y)]; congruence. }
  pose proof (fstat_ok _ _ _ _ _ _ E) as (-> & o & i & Ho & <- & Hi & Hk).
  unfold fd_of in H at 1. cbn [f_fd] in H. rewrite E in H.
  destruct (match k with KDir => true | _ => false end) eqn:Ek.
  { destruct k; try discriminate. 
    destruct (wraps rk) eqn:Ew; injection H as <- <- <-.
    - split; [apply rawf_refl|]. split; [now right|]. split; [|tauto]. auto.
    - split; [apply rawf_refl|]. split; [now left|]. split; [|tauto].
      intros o' i' Hnz. exfalso. unfold wraps in Ew. apply orb_false_iff in Ew. destruct Ew as [E1 E2].
      destruct Hd as [Hd|[_ Hd]]; [rewrite Hd in E2; unfold truthy in E2|rewrite Hd in E1; unfold truthy in E1];
        destruct (Z.eqb_spec d 0); cbn in *; congruence. }
  set (f2 := mkRio (Some d) _ _ _ _ _ _ _ _ _) in H.
  assert ((if rk_append rk then
                match raw_seek f2 0 2 w with
                | (Ok _, w3) => (Ok tt, f2, w3)
                | (Err (EOS e), w3) => if e =? ESPIPE then (Ok tt, f2, w3) else (Err (EOS e), f2, w3)
                | (Err e, w3) => (Err e, f2, w3)
                end
              else (Ok tt, f2, w)) = (rr, f, w1)) as Y by (destruct k; try discriminate Ek; exact H).
  assert (f = f2 /\ rawf d w w1) as [-> R].
  { destruct (rk_append rk); [|injection Y as <- <- <-; split; [auto|apply rawf_refl]].
    destruct (raw_seek f2 0 2 w) as [r4 w4] eqn:E4. apply raw_seek_within in E4. change (fd_of f2) with d in E4.
    destruct r4 as [z|[]]; try (injection Y as <- <- <-; auto).
    destruct (errno =? ESPIPE); injection Y as <- <- <-; auto. }
  split; [exact R|]. split; [now left|]. split; [|tauto].
  intros o' i' _ _ Ho' Hi' Hk'. exfalso. rewrite Ho in Ho'. injection Ho' as <-. rewrite Hi in Hi'. injection Hi' as <-.
  rewrite Hk' in Hk. subst k. discriminate Ek.
Qed.

Lemma prelude_closefd py_u a rk ek :
  rsopen_prelude py_u (a_name a) (a_mode a) (a_fileno a) (a_handle a) (a_closefd a)
          (a_opener a) (a_thread_safe a) (a_mutex a) (a_enc a) (a_errs a) (a_nl a) = Ok (rk, ek) ->
  rk_closefd rk = a_closefd a.
Proof.
  unfold rsopen_prelude. destruct (_ && _); [discriminate|].
  destruct (parse_mode _ _ _ _ _ _) as [[rk0 ek0]|e] eqn:Ep; [|discriminate].
  destruct (parse_mode_fields _ _ _ _ _ _ _ _ Ep) as (P1 & P2 & P3).
  intros H.
  match type of H with match ?x with _ => _ end = _ => destruct x as [rk1|e1] eqn:E1; [|discriminate] end.
  repeat match type of H with (if ?x then _ else _) = _ => destruct x; [discriminate|] end.
  injection H as <- _. destruct (a_opener a) as [fd|]; [|injection E1 as <-; exact P2].
  destruct (truthy (rk_fileno rk0)); [discriminate|]. destruct (fd <? 0); [discriminate|]. injection E1 as <-. exact P2.
Qed.

(** * C61 *)

(** With closefd=False the descriptor given stays open on its file, whatever rsopen does: it
    returns a stream or it raises. *)
Theorem C61_not_owned_kept py_u a d w r w' : given a d -> a_closefd a = false -> (forall v, ~ In d (pending w v)) ->
  rsopen py_u a w = (r, w') -> same_ofd (w_fds w d) (w_fds w' d).
Proof.
  intros Hg Hc Q H. unfold rsopen in H.
  destruct (rsopen_prelude _ _ _ _ _ _ _ _ _ _ _ _) as [[rk ek]|e] eqn:Ep; [|injection H as <- <-; apply same_ofd_refl].
  pose proof (prelude_closefd _ _ _ _ Ep) as Ec. rewrite Hc in Ec.
  assert (init_checks rk = Ok tt \/ init_checks rk <> Ok tt) as [Hck|Hck].
  { destruct (init_checks rk) as [[]|]; [left; auto|right; discriminate]. }
  2:{ unfold bind, raw_open, raw_init in H. destruct (init_checks rk) as [[]|e0]; [congruence|].
      rewrite raw_close_unbuilt in H by reflexivity. injection H as <- <-. apply same_ofd_refl. }
  pose proof (prelude_wrapped _ _ _ _ _ Ep Hck Hg) as Hd.
  unfold bind, raw_open in H. destruct (raw_init rk w) as [[rr f] w1] eqn:Ei.
  destruct (raw_init_wrapped _ _ _ _ _ _ Ei Hd) as (R & Cf & _ & _).
  assert (f_closefd f = false) as Cf' by (destruct Cf; congruence). clear Cf.
  assert (same_ofd (w_fds w d) (w_fds w1 d)) as S1 by apply R.
  assert (quiet d w1) as Q1 by (eapply quiet_of; [apply R|apply R|exact Q]).
  destruct rr as [[]|e].
  2:{ destruct (raw_close f w1) as [r2 w2] eqn:Ek. cbn [snd] in H. injection H as <- <-.
      destruct (close_not_owner d _ _ _ _ Ek Cf' Q1) as [F _]. now rewrite F. }
  assert (fd_of f = d) as Ff.
  { destruct (raw_open_wrapped rk w f w1 d) as [F _]; auto; [unfold raw_open; now rewrite Ei|]. unfold fd_of. now rewrite F. }
  apply open_wrap_cases in H. destruct H as (r1 & w2 & Hb & Hr).
  assert (same_ofd (w_fds w1 d) (w_fds w2 d) /\ ((exists e, r1 = Err e /\ e <> EHang) -> quiet d w2)) as [S2 Q2].
  { apply open_body_cases in Hb.
    assert (forall wa wb, rawf (fd_of f) wa wb -> quiet d wa -> quiet d wb) as QR.
    { intros wa wb X. apply quiet_of; apply X. }
    inversion_clear Hb as [e' w3 A1 A2 A3|w3 w4 w5 r2 A1 A2 A3 A4 A5 A6 A7|w4 w5 r2 A0 A4 A5 A6 A7].
    - split; [apply lock_file_env in A3; destruct A3 as (_ & _ & _ & _ & X); rewrite X; apply same_ofd_refl|].
      intros (e & X & He). injection X as <-. pose proof (C19_failed_lock_no_trace _ _ _ _ _ _ _ _ _ A3 He) as N.
      intros v. destruct (uid_dec v (uid_of f)) as [->|Hv]; [rewrite (nt_pending _ _ _ _ N); apply Q1|].
      unfold pending. rewrite (nt_other _ _ _ _ N v Hv). apply Q1.
    - split.
      + eapply same_ofd_trans; [|rewrite <- Ff; apply A5]. eapply same_ofd_trans; [|rewrite <- Ff; apply A4].
        apply lock_file_env in A3. destruct A3 as (_ & _ & _ & _ & X). rewrite X. rewrite Ff. apply same_ofd_refl.
      + intros _. apply (QR _ _ A5), (QR _ _ A4).
        rewrite C21_lock_file_default_share in A3. apply C21_lock_file_obtains in A3. destruct A3 as (_ & _ & _ & N).
        intros v. destruct (uid_dec v (uid_of f)) as [->|Hv]; [rewrite (ob_pending _ _ _ _ _ _ N); apply Q1|].
        unfold pending. rewrite (ob_other _ _ _ _ _ _ N v Hv). apply Q1.
    - split.
      + eapply same_ofd_trans; [|rewrite <- Ff; apply A5]. rewrite Ff. rewrite <- Ff at 1 2. apply A4.
      + intros _. apply (QR _ _ A5), (QR _ _ A4), Q1. }
  eapply same_ofd_trans; [exact S1|]. eapply same_ofd_trans; [exact S2|].
  destruct Hr as [(-> & -> & _)|(e & r2 & -> & He & Hcl & _)]; [apply same_ofd_refl|].
  destruct (close_not_owner d _ _ _ _ Hcl Cf' (Q2 (ex_intro _ e (conj eq_refl He)))) as [F _]. rewrite F. apply same_ofd_refl.
Qed.

(** Closing the stream leaves it open too. *)
Theorem C61_not_owned_close f d w r w' : f_closefd f = false -> (forall v, ~ In d (pending w v)) ->
  raw_close f w = (r, w') -> w_fds w' d = w_fds w d.
Proof. intros C Q H. apply (close_not_owner d f w r w' H C Q). Qed.

(** A directory is refused, and the descriptor given (not 0) stays open even with closefd=True. *)
Theorem C61_directory_kept py_u a d w r w' o i : given a d -> d <> 0 -> (forall v, ~ In d (pending w v)) ->
  w_fds w d = Some o -> w_inodes w (o_uid o) = Some i -> n_kind i = KDir ->
  rsopen py_u a w = (r, w') -> (exists e, r = Err e) /\ w_fds w' d = Some o.
Proof.
  intros Hg Hnz Q Ho Hi Hk H. unfold rsopen in H.
  destruct (rsopen_prelude _ _ _ _ _ _ _ _ _ _ _ _) as [[rk ek]|e] eqn:Ep; [|injection H as <- <-; eauto].
  assert (init_checks rk = Ok tt \/ init_checks rk <> Ok tt) as [Hck|Hck].
  { destruct (init_checks rk) as [[]|]; [left; auto|right; discriminate]. }
  2:{ unfold bind, raw_open, raw_init in H. destruct (init_checks rk) as [[]|e0]; [congruence|].
      rewrite raw_close_unbuilt in H by reflexivity. injection H as <- <-. eauto. }
  pose proof (prelude_wrapped _ _ _ _ _ Ep Hck Hg) as Hd.
  unfold bind, raw_open in H. destruct (raw_init rk w) as [[rr f] w1] eqn:Ei.
  destruct (raw_init_wrapped _ _ _ _ _ _ Ei Hd) as (_ & _ & D & _).
  destruct (D o i Hnz Hck Ho Hi Hk) as (-> & Cf & ->).
  destruct (raw_close f w) as [r2 w2] eqn:Ek. cbn [snd] in H. injection H as <- <-. split; [eauto|].
  destruct (close_not_owner d _ _ _ _ Ek Cf Q) as [F _]. congruence.
Qed.

(** * When the call fails *)

(** "A failed rsopen leaves the descriptor it was given open." *)
Definition failure_keeps : Prop := forall py_u a d w e w' o, given a d -> (forall v, ~ In d (pending w v)) ->
  w_fds w d = Some o -> rsopen py_u a w = (Err e, w') -> w_fds w' d <> None.

(** Descriptor [d] open on inode [u], in the demo world. *)
Definition holding (d : Z) (u : uid) (rd wr : bool) (w : world) : world := upd_fd w d (Some (mkOfd u 0 rd wr false false false)).
(** rsopen(mode=..., fileno=d, closefd=...), locking, timeout=0 *)
Definition wrap_args (d : Z) (mode : string) (closefd : bool) : openargs :=
  mkOA NNone (name mode) (Some d) None closefd None None true (PInt 0) false false false false false None.

(** With closefd=True, a lock that cannot be taken closes the descriptor of the caller. *)
Theorem C61_failure_keeps_refuted : ~ failure_keeps.
Proof.
  intros H.
  set (w := holding 7 (1, 10) true true (demo [1; 2] [] [] [mkSeg 55 (1, 10) false 0 None])).
  destruct (rsopen true (wrap_args 7 "rb" true) w) as [r w'] eqn:E.
  assert (exists e, r = Err e) as (e & ->) by (vm_compute in E; injection E as <- <-; eexists; reflexivity).
  assert (w_fds w' 7 = None) as N by (vm_compute in E; injection E as _ <-; reflexivity).
  apply (H true (wrap_args 7 "rb" true) 7 w e w' (mkOfd (1, 10) 0 true true false false false)); auto.
  - left. reflexivity.
Qed.

(** Descriptor 0 on a directory: [fileno or handle] is false, the assertion fails, and the descriptor
    is then given to close(), which fails too: left open, but pending for ever. *)
Example C61_directory_zero :
  let w := holding 0 (1, 20) true false (demo [] [] [] []) in
  fst (rsopen true (wrap_args 0 "rb" true) w) = Err EAssert.
Proof. vm_compute. reflexivity. Qed.

(** A directory, a lock failure with closefd=False, and a success. *)
Example C61_example :
  let busy := [mkSeg 55 (1, 10) false 0 None] in
  let run d u mode c k := let '(r, w') := rsopen true (wrap_args d mode c) (holding d u true true (demo [1; 2] [] [] k)) in
                          (match r with Ok _ => None | Err e => Some e end, is_some (w_fds w' d)) in
  run 7 (1, 20) "rb" true [] = (Some (EOS EISDIR), true)
  /\ run 7 (1, 10) "rb" false busy = (Some (ELocking 11), true)
  /\ run 7 (1, 10) "rb" true busy = (Some (ELocking 11), false)
  /\ run 7 (1, 10) "rb" true [] = (None, true).
Proof. vm_compute. auto. Qed.

Print Assumptions C61_not_owned_kept.
Print Assumptions C61_not_owned_close.
Print Assumptions C61_directory_kept.
Print Assumptions C61_failure_keeps_refuted.
