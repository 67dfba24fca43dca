(** C78, C79: lock requests that the system refuses for good; unlocking with the arguments of the lock. *)
From Coq Require Import ZArith Ascii String List Bool Lia.
From Verif Require Import M_Base M_Modes M_Registry M_Kernel M_World M_Raw S_Locks S_LockFile S_Refused S_Demo
  P_Registry P_Kernel P_Raw P_Lock P_LockFile C_Lock.
Import ListNotations.
Open Scope Z_scope.
Open Scope list_scope.

Lemma hopeless_pre f sh off w : hopeless f w sh off -> exists e io, lock_pre (fd_of f) sh off w = (Err (EOS e), set_io w io).
Proof.
  assert (forall x : world, set_io x (w_io x) = x) as Hid by (intros []; reflexivity).
  intros H. unfold lock_pre, bind, get_fd. destruct (w_fds w (fd_of f)) as [o|] eqn:Ef.
  2:{ eexists _, (w_io w). now rewrite Hid. }
  destruct (w_inodes w (o_uid o)) as [i|].
  2:{ eexists _, (w_io w). now rewrite Hid. }
  rewrite next_io_eq. exists (match hd IoFull (w_io w) with IoErr x => x | _ => if off <? 0 then EINVAL else EBADF end), (tl (w_io w)).
  destruct (hd IoFull (w_io w)); try reflexivity; unfold raise; destruct (Z.ltb_spec off 0); try reflexivity;
    destruct H as [H|H]; try lia; specialize (H o Ef); destruct sh; rewrite H; reflexivity.
Qed.
Lemma hopeless_fds f sh off w w' : w_fds w' = w_fds w -> hopeless f w sh off -> hopeless f w' sh off.
Proof. unfold hopeless. intros ->. auto. Qed.

Section Hopeless.
Variables (f : rawio) (q : lockreq).
Notation "'ghost' w" := (hopeless f w (q_shared q) (q_off q)) (at level 9).

(** Never granted. *)
Definition denied (p : res unit * world) : Prop := fst p <> Ok tt.
Lemma fail_denied r e w : denied (l_fail f q r e w).
Proof. unfold denied, l_fail. destruct r; [|discriminate]. destruct (unregister f q w) as [[] ?]; discriminate. Qed.
Lemma never_granted : forall env ph w, ph <> PhKernWait -> ghost w -> denied (lock_loop f q env ph w).
Proof.
  assert (W : forall env ph w, (forall ev env', env = ev :: env' -> forall ph w, ph <> PhKernWait -> ghost w -> denied (lock_loop f q env' ph w)) ->
    ph <> PhKernWait -> ghost w -> denied (l_wait f q env ph w)).
  { intros env ph w IH Hp G. unfold l_wait. destruct env as [|ev env']; [discriminate|]. apply (IH ev env' eq_refl); auto.
    revert G. apply hopeless_fds. apply (apply_env_fields f ev w env'). }
  assert (S : forall env ph n r w, (forall ev env', env = ev :: env' -> forall ph w, ph <> PhKernWait -> ghost w -> denied (lock_loop f q env' ph w)) ->
    ph <> PhKernWait -> ghost w -> denied (l_sleep f q env ph n r w)).
  { intros env ph n r w IH Hp G. unfold l_sleep. destruct (check_timeout _ _ _ _); [apply fail_denied|now apply W]. }
  assert (K : forall env w, (forall ev env', env = ev :: env' -> forall ph w, ph <> PhKernWait -> ghost w -> denied (lock_loop f q env' ph w)) ->
    ghost w -> denied (l_kern f q env w)).
  { intros env w IH G. unfold l_kern. destruct (hopeless_pre _ _ _ _ G) as (e & io & ->). apply S; auto; discriminate. }
  assert (R : forall env b w, (forall ev env', env = ev :: env' -> forall ph w, ph <> PhKernWait -> ghost w -> denied (lock_loop f q env' ph w)) ->
    ghost w -> denied (l_register f q env b w)).
  { intros env b w IH G. unfold l_register. destruct (register_once _ _ _ _ _ _ _ _) as [[[]|e] reg].
    - apply K; auto.
    - destruct (low_level_blocking f q).
      + unfold wait_count. destruct (add_waiting _ _ _); [|discriminate]. apply W; auto; discriminate.
      + apply S; auto; discriminate.
    - discriminate. }
  induction env as [|ev env IH]; intros ph w Hp G; rewrite lock_loop_eq.
  - assert (IH : forall ev env', [] = ev :: env' -> forall ph w, ph <> PhKernWait -> ghost w -> denied (lock_loop f q env' ph w)) by discriminate.
    destruct ph; try congruence; auto. unfold wait_count. destruct (add_waiting _ _ _); [|discriminate]. apply R; auto.
  - assert (IH' : forall ev' env', ev :: env = ev' :: env' -> forall ph w, ph <> PhKernWait -> ghost w -> denied (lock_loop f q env' ph w)).
    { intros ev' env' [= <- <-]. exact IH. }
    destruct ph; try congruence; auto. unfold wait_count. destruct (add_waiting _ _ _); [|discriminate]. apply R; auto.
Qed.
End Hopeless.

(** The possible outcomes of a hopeless call. *)
Lemma hopeless_cases f w length offset whence shared off timeout r w' :
  hopeless_call f w length offset whence shared off -> ~ wrong_nonneg timeout ->
  raw_lock_file f timeout length offset whence (SBool shared) w = (r, w') ->
  let q := mkReq (parg_opt length) off shared (parg_opt timeout) (w_clock w) in
  (r = Err EHang /\ (low_level_blocking f q = true \/ exists n, check_timeout f q (w_clock w') n = None))
  \/ (exists e n, r = Err e /\ check_timeout f q (w_clock w') n = Some e).
Proof.
  intros [Hc Hs Hl Ho Hw Hsh Hres Hreg Hown Hh] Ht H q.
  assert (forall p, ~ wrong_nonneg p -> bad_nonneg p = false) as Hb.
  { intros p Hp. destruct p; cbn; auto.
    - destruct (Z.ltb_spec z 0); auto. exfalso. apply Hp. right. eauto.
    - exfalso. apply Hp. now left. }
  assert (args_ok f timeout length offset whence (SBool shared) = true) as Ha.
  { unfold args_ok. rewrite Hc, Hs, !Hb by auto. cbn [negb andb].
    destruct offset; try congruence; unfold seek_value; destruct Hw as [->|[->| ->]]; reflexivity. }
  rewrite lock_file_args in H. rewrite Hc, Hs, Ha in H. cbn [negb share_of] in H.
  assert (share_ok f shared = true) as Hok by exact Hsh. rewrite Hok in H. cbn [negb] in H.
  assert (exists w1, abs_offset f offset whence w = (Ok off, w1)) as (w1 & Eo).
  { unfold abs_offset, bind. destruct Hres as [(-> & Hz)|(o & i & Hfd & Hi & [(-> & Hz)|(-> & Hz)])].
    - cbn. rewrite Hz. unfold ret. eauto.
    - destruct (Hreg _ _ Hfd Hi) as [Hk Hp].
      cbn [Z.eqb Pos.eqb]. unfold inner_tell, sys_lseek, bind, get_fd. rewrite Hfd, Hi, Hk. cbn [Z.eqb Pos.eqb].
      destruct (Z.ltb_spec (o_pos o + 0) 0); [lia|]. rewrite Z.add_0_r, Hz. unfold ret. eauto.
    - cbn [Z.eqb Pos.eqb]. unfold inner_size, sys_fstat, bind, get_fd. rewrite Hfd, Hi, Hz. unfold ret. cbn. eauto. }
  rewrite Eo in H. pose proof (abs_offset_pres _ _ _ _ _ _ Eo) as [F1 F2].
  assert (w_clock w1 = w_clock w) as C1 by (rewrite F2; auto). rewrite C1 in H. fold q in H.
  assert (G1 : hopeless f w1 (q_shared q) (q_off q)).
  { destruct Hh as [Hh|Hh]; [now left|right]. intros o. rewrite F1. apply Hh. }
  pose proof (never_granted f q (w_env w1) PhReg w1 ltac:(discriminate) G1) as N.
  pose proof (loop_general f q (args_ok_len _ _ _ _ _ _ Ha) false (w_env w1) w1 ltac:(discriminate)) as O.
  destruct (lock_loop f q (w_env w1) PhReg w1) as [[[]|e1] w2] eqn:El.
  - exfalso. now apply N.
  - injection H as <- <-. inversion O as [|ph w3 L Hf Hto|w3 lk L Hin Hcs|e2 n w3 L Hto Hf]; subst.
    + left. auto.
    + exfalso. apply Hown. pose proof (li_mine _ _ _ _ _ _ L) as Hm. cbn [is_reg] in Hm. rewrite app_nil_r in Hm.
      destruct Hcs as (Hhd & b & B1 & B2). apply range_end_covers in B2.
      exists lk, b. split; [|auto].
      assert (In lk (filter (fun lk => lk_handle lk =? fd_of f) (locks_of (w_reg w2) (uid_of f)))) as X.
      { apply filter_In. split; auto. now apply Z.eqb_eq. }
      rewrite Hm in X. apply filter_In in X. destruct X as [X _]. rewrite F2 in X. exact X.
    + right. eauto.
Qed.

(** * C78 *)

(** With a timeout T (a negative spin delay apart): such a request is never granted; LockingException is raised, at the
    first attempt after T seconds and not before, although nothing could change; by C19 nothing is left behind. *)
Theorem C78_reported_after_timeout_partial : forall f w length offset whence shared off T r w',
  hopeless_call f w length offset whence shared off -> 0 <= T -> 0 <= f_spin f ->
  raw_lock_file f (PInt T) length offset whence (SBool shared) w = (r, w') ->
  ((exists n, r = Err (ELocking n)) /\ T <= w_clock w' - w_clock w)
  \/ (r = Err EHang /\ w_clock w' - w_clock w < T).
Proof.
  intros f w length offset whence shared off T r w' HC HT Hspin H.
  assert (~ wrong_nonneg (PInt T)) as Hw. { intros [X|(z & [= <-] & X)]; [discriminate|lia]. }
  destruct (hopeless_cases _ _ _ _ _ _ _ _ _ _ HC Hw H) as [(-> & [L|(n & C)])|(e & n & -> & C)].
  - discriminate.
  - right. split; auto. unfold check_timeout in C. cbn in C.
    destruct (Z.leb_spec T (w_clock w' - w_clock w)); [discriminate|lia].
  - left. unfold check_timeout in C. cbn in C. destruct (Z.leb_spec T (w_clock w' - w_clock w)).
    + injection C as <-. eauto.
    + destruct (Z.ltb_spec (f_spin f) 0); [lia|discriminate].
Qed.
(** With timeout=0 it is raised at once. *)
Theorem C78_reported_at_once_partial : forall f w length offset whence shared off r w',
  hopeless_call f w length offset whence shared off -> 0 <= f_spin f ->
  raw_lock_file f (PInt 0) length offset whence (SBool shared) w = (r, w') ->
  (exists n, r = Err (ELocking n)) /\ w_clock w' = w_clock w.
Proof.
  intros f w length offset whence shared off r w' HC Hspin H.
  destruct (C20_lock_timeout_zero _ _ _ _ _ _ _ _ H) as (Hn & _ & Ec). split; [|exact Ec].
  destruct (C78_reported_after_timeout_partial _ _ _ _ _ _ _ 0 _ _ HC ltac:(lia) Hspin H) as [[X _]|[X _]]; [exact X|congruence].
Qed.
(** With an enforced timeout E and no timeout: RuntimeError, after E seconds. *)
Theorem C78_reported_when_enforced_partial : forall f w length offset whence shared off E r w',
  hopeless_call f w length offset whence shared off -> f_enforced f = Some E -> 0 <= f_spin f ->
  raw_lock_file f PNone length offset whence (SBool shared) w = (r, w') ->
  (r = Err ERuntime /\ E <= w_clock w' - w_clock w) \/ (r = Err EHang /\ w_clock w' - w_clock w < E).
Proof.
  intros f w length offset whence shared off E r w' HC He Hspin H.
  assert (~ wrong_nonneg PNone) as Hw by (intros [X|(z & X & _)]; discriminate).
  destruct (hopeless_cases _ _ _ _ _ _ _ _ _ _ HC Hw H) as [(-> & [L|(n & C)])|(e & n & -> & C)].
  - unfold low_level_blocking in L. cbn in L. rewrite He in L. discriminate.
  - right. split; auto. unfold check_timeout in C. cbn in C. rewrite He in C.
    destruct (Z.leb_spec E (w_clock w' - w_clock w)); [discriminate|lia].
  - left. unfold check_timeout in C. cbn in C. rewrite He in C. destruct (Z.leb_spec E (w_clock w' - w_clock w)).
    + injection C as <-. auto.
    + destruct (Z.ltb_spec (f_spin f) 0); [lia|discriminate].
Qed.
(** Without any timeout the call never returns: whatever happens around it, for however long. *)
Theorem C78_waits_forever : forall f w length offset whence shared off env,
  hopeless_call f w length offset whence shared off -> f_enforced f = None -> 0 <= f_spin f ->
  exists w', raw_lock_file f PNone length offset whence (SBool shared) (set_env w env) = (Err EHang, w').
Proof.
  intros f w length offset whence shared off env HC He Hspin.
  assert (~ wrong_nonneg PNone) as Hw by (intros [X|(z & X & _)]; discriminate).
  assert (hopeless_call f (set_env w env) length offset whence shared off) as HC' by (destruct HC; constructor; auto).
  destruct (raw_lock_file f PNone length offset whence (SBool shared) (set_env w env)) as [r w'] eqn:H. exists w'.
  destruct (hopeless_cases _ _ _ _ _ _ _ _ _ _ HC' Hw H) as [(-> & _)|(e & n & -> & C)]; [reflexivity|].
  unfold check_timeout in C. cbn in C. rewrite He in C. destruct (Z.ltb_spec (f_spin f) 0); [lia|discriminate].
Qed.

(** The property: such a call raises an exception in the end. *)
Definition refusals_are_reported : Prop := forall f w length offset whence shared off,
  hopeless_call f w length offset whence shared off -> 0 <= f_spin f ->
  exists env e w', raw_lock_file f PNone length offset whence (SBool shared) (set_env w env) = (Err e, w') /\ e <> EHang.

(** lock_file(offset=-1) on a file nobody locked. *)
Definition lone : rawio * world := demo_open "f" true true false (demo [1; 2; 3] [] [] []).
(** A stream for writing on a descriptor that was opened for reading (the mode given to rsopen with fileno=). *)
Definition ill_wrapped : rawio * world :=
  let '(f, w) := demo_open "f" true false false (demo [1; 2; 3] [] [] []) in
  match raw_open (mkRaw NNone true true false false false false false (f_fd f) None true) w with
  | (Ok g, w') => (g, w')
  | (Err _, w') => (f, w')
  end.
Lemma lone_hopeless : hopeless_call (fst lone) (snd lone) PNone (PInt (-1)) 0 false (-1).
Proof.
  constructor; try reflexivity; auto; try (vm_compute; congruence).
  - intros [X|(z & X & _)]; discriminate.
  - left. split; reflexivity.
  - intros o i Ho Hi. vm_compute in Ho. injection Ho as <-. vm_compute in Hi. injection Hi as <-. split; [reflexivity|cbn; lia].
  - intros (lk & b & Hin & _). vm_compute in Hin. exact Hin.
  - left. lia.
Qed.
Lemma ill_wrapped_hopeless : hopeless_call (fst ill_wrapped) (snd ill_wrapped) PNone PNone 0 false 0.
Proof.
  constructor; try reflexivity; auto; try (vm_compute; congruence).
  - intros [X|(z & X & _)]; discriminate.
  - left. split; reflexivity.
  - intros o i Ho Hi. vm_compute in Ho. injection Ho as <-. vm_compute in Hi. injection Hi as <-. split; [reflexivity|cbn; lia].
  - intros (lk & b & Hin & _). vm_compute in Hin. exact Hin.
  - right. intros o Ho. vm_compute in Ho. injection Ho as <-. reflexivity.
Qed.
Theorem C78_refusals_are_reported_refuted : ~ refusals_are_reported.
Proof.
  intros H. destruct (H _ _ _ _ _ _ _ lone_hopeless ltac:(vm_compute; discriminate)) as (env & e & w' & E & N).
  destruct (C78_waits_forever _ _ _ _ _ _ _ env lone_hopeless eq_refl ltac:(vm_compute; discriminate)) as (w2 & E2).
  rewrite E2 in E. injection E as <- _. now apply N.
Qed.
(** Meanwhile the range is reserved in the process: bytes 0 to the end too, no other stream of the process gets them. *)
Definition while_waiting : res (option Z * Z) * list lockrec * res (option Z * Z) :=
  let '(f, w) := lone in
  let '(r, w1) := raw_lock_file f PNone PNone (PInt (-1)) 0 SNone (set_env w [tick 1000; tick 1000]) in
  let '(g, w2) := demo_open "f" true true false w1 in
  (r, mine w1 (1, 10) 3, fst (raw_lock_file g (PInt 0) PNone PNone 0 SNone w2)).
Example ex_while_waiting : while_waiting = (Err EHang, [mkLock 3 false (-1) None], Err (ELocking EPERM)).
Proof. vm_compute. reflexivity. Qed.
Example ex_ill_wrapped : forall env, exists w',
  raw_lock_file (fst ill_wrapped) PNone PNone PNone 0 (SBool false) (set_env (snd ill_wrapped) env) = (Err EHang, w').
Proof. intros env. exact (C78_waits_forever _ _ _ _ _ _ _ env ill_wrapped_hopeless eq_refl ltac:(vm_compute; discriminate)). Qed.
Example ex_reported : fst (raw_lock_file (fst lone) (PInt 5) PNone (PInt (-1)) 0 SNone (set_env (snd lone) [tick 2; tick 2; tick 2]))
  = Err (ELocking EINVAL).
Proof. vm_compute. reflexivity. Qed.

(** * C79 *)

(** unlock_file with the arguments of lock_file, when these still mean the same bytes (same position for whence=1, same
    size for whence=2) and the offset is not negative: the lock is given back. *)
Theorem C79_same_arguments_partial : forall f timeout length offset whence shared w len off w1 w2 r w',
  raw_lock_file f timeout length offset whence (SBool shared) w = (Ok (len, off), w1) ->
  ~ wrong_nonneg offset ->
  (exists lk, In lk (mine w2 (uid_of f) (fd_of f)) /\ lk_start lk = off /\ lk_end lk = range_end off len) ->
  lockable f w2 shared -> resolves f w2 offset whence off ->
  (forall o i, w_fds w2 (fd_of f) = Some o -> w_inodes w2 (o_uid o) = Some i -> n_kind i = KReg /\ 0 <= o_pos o) ->
  raw_unlock_file f length offset whence w2 = (r, w') ->
  (exists m1 lk m2, mine w2 (uid_of f) (fd_of f) = m1 ++ lk :: m2 /\ mine w' (uid_of f) (fd_of f) = m1 ++ m2
      /\ lk_start lk = off /\ lk_end lk = range_end off len)
  /\ (forall sh b, covers off len b -> ~ process_holds w' (uid_of f) sh b)
  /\ (pending w2 (uid_of f) = [] -> r = Ok tt).
Proof.
  intros f timeout length offset whence shared w len off w1 w2 r w' Hl Hneg Hrec Hlk Hres Hreg H.
  destruct (C21_lock_file_obtains _ _ _ _ _ _ _ _ _ _ Hl) as (Elen & _ & Hoff & _).
  assert (f_closed f = false /\ f_seekable f = true /\ args_ok f timeout length offset whence (SBool shared) = true) as (Hc & Hs & Ha).
  { rewrite lock_file_args in Hl. destruct (f_closed f); [discriminate|]. destruct (f_seekable f); [|discriminate].
    cbn [negb] in Hl. destruct (args_ok _ _ _ _ _ _) eqn:Ea; [|discriminate]. auto. }
  pose proof (args_ok_len _ _ _ _ _ _ Ha) as Hlen. rewrite <- Elen in Hlen.
  unfold args_ok in Ha. rewrite !andb_true_iff, !negb_true_iff in Ha. destruct Ha as [[[[[_ _] Hbl] _] Hsv] _].
  assert (Hbo : bad_nonneg offset = false).
  { destruct offset; cbn; auto.
    - destruct (Z.ltb_spec z 0); auto. exfalso. apply Hneg. right. eauto.
    - exfalso. apply Hneg. now left. }
  assert (exists w3, abs_offset f offset whence w2 = (Ok off, w3)) as (w3 & Eo).
  { unfold abs_offset, bind. destruct Hres as [(-> & Hz)|(o & i & Hfd & Hi & [(-> & Hz)|(-> & Hz)])].
    - cbn. rewrite Hz. unfold ret. eauto.
    - destruct (Hreg _ _ Hfd Hi) as [Hk Hp].
      cbn [Z.eqb Pos.eqb]. unfold inner_tell, sys_lseek, bind, get_fd. rewrite Hfd, Hi, Hk. cbn [Z.eqb Pos.eqb].
      destruct (Z.ltb_spec (o_pos o + 0) 0); [lia|]. rewrite Z.add_0_r, Hz. unfold ret. eauto.
    - cbn [Z.eqb Pos.eqb]. unfold inner_size, sys_fstat, bind, get_fd. rewrite Hfd, Hi, Hz. unfold ret. cbn. eauto. }
  pose proof (abs_offset_pres _ _ _ _ _ _ Eo) as [F1 F2].
  assert (Eu : raw_unlock_file f (match len with None => PNone | Some l => PInt l end) (PInt off) 0 w3 = (r, w')).
  { rewrite <- H. subst len. unfold raw_unlock_file, check_seekable, check_closed, bind. rewrite Hc, Hs. unfold ret.
    rewrite Hbl, Hbo, Hsv. cbn [negb]. unfold bind. rewrite Eo.
    assert (E1 : bad_nonneg (match parg_opt length with Some l => PInt l | None => PNone end) = false).
    { destruct (parg_opt length); cbn; auto. lia. }
    assert (E2 : bad_nonneg (PInt off) = false) by (cbn; lia). rewrite E1, E2. cbn [seek_value Z.eqb orb negb].
    assert (E3 : parg_opt (match parg_opt length with Some l => PInt l | None => PNone end) = parg_opt length) by now destruct (parg_opt length).
    rewrite E3. reflexivity. }
  destruct Hlk as [(o & Ho & Hu & _) Hi Hio].
  assert (M : mine w3 (uid_of f) (fd_of f) = mine w2 (uid_of f) (fd_of f)) by (rewrite F2; reflexivity).
  assert (Pd : pending w3 (uid_of f) = pending w2 (uid_of f)) by (rewrite F2; reflexivity).
  rewrite <- M, <- Pd. apply (unlock_file_ok f len off w3 Hc Hs Hoff Hlen); auto.
  - now rewrite M.
  - exists o. now rewrite F1.
  - rewrite F2. exact Hi.
  - rewrite F2. exact Hio.
Qed.

(** A negative offset, which lock_file takes (relative to the position or to the end), unlock_file never takes. *)
Theorem C79_negative_offset : forall f length z whence w, f_closed f = false -> f_seekable f = true -> z < 0 ->
  raw_unlock_file f length (PInt z) whence w = (Err EBadValue, w).
Proof.
  intros f length z whence w Hc Hs Hz. unfold raw_unlock_file, check_seekable, check_closed, bind. rewrite Hc, Hs. unfold ret, raise.
  assert (E : bad_nonneg (PInt z) = true) by (cbn; lia). rewrite E. destruct (bad_nonneg length); reflexivity.
Qed.
Definition unlocks_what_it_locked : Prop := forall f timeout length offset whence shared w len off w1 r w2,
  raw_lock_file f timeout length offset whence (SBool shared) w = (Ok (len, off), w1) -> lockable f w1 shared ->
  raw_unlock_file f length offset whence w1 = (r, w2) -> r = Ok tt.
(** The last two bytes of the file. *)
Theorem C79_same_arguments_refuted : ~ unlocks_what_it_locked.
Proof.
  intros H.
  destruct (raw_lock_file (fst lone) PNone (PInt 2) (PInt (-2)) 2 (SBool false) (snd lone)) as [rl w1] eqn:E1.
  assert (El : rl = Ok (Some 2, 1)).
  { change rl with (fst (rl, w1)). rewrite <- E1. vm_compute. reflexivity. }
  subst rl.
  assert (L : lockable (fst lone) w1 false).
  { assert (W : w1 = snd (raw_lock_file (fst lone) PNone (PInt 2) (PInt (-2)) 2 (SBool false) (snd lone))) by (rewrite E1; reflexivity).
    subst w1. constructor.
    - eexists. split; [vm_compute; reflexivity|split; reflexivity].
    - vm_compute. discriminate.
    - intros e. vm_compute. tauto. }
  pose proof (C79_negative_offset (fst lone) (PInt 2) (-2) 2 w1 eq_refl eq_refl ltac:(lia)) as U.
  specialize (H _ _ _ _ _ _ _ _ _ _ _ _ E1 L U). discriminate.
Qed.
(** The same bytes, by their absolute offset. *)
Definition lock_unlock (offset offset' : parg) (whence whence' : Z) : res (option Z * Z) * res unit * nat :=
  let '(f, w) := lone in
  let '(r1, w1) := raw_lock_file f PNone (PInt 2) offset whence SNone w in
  let '(r2, w2) := raw_unlock_file f (PInt 2) offset' whence' w1 in
  (r1, r2, List.length (mine w2 (1, 10) 3)).
Example ex_unlock_negative : lock_unlock (PInt (-2)) (PInt (-2)) 2 2 = (Ok (Some 2, 1), Err EBadValue, 1%nat).
Proof. vm_compute. reflexivity. Qed.
Example ex_unlock_absolute : lock_unlock (PInt (-2)) (PInt 1) 2 0 = (Ok (Some 2, 1), Ok tt, 0%nat).
Proof. vm_compute. reflexivity. Qed.
Example ex_unlock_same : lock_unlock (PInt 1) (PInt 1) 2 2 = (Ok (Some 2, 4), Ok tt, 0%nat).
Proof. vm_compute. reflexivity. Qed.

Print Assumptions C78_reported_after_timeout_partial.
Print Assumptions C78_reported_at_once_partial.
Print Assumptions C78_reported_when_enforced_partial.
Print Assumptions C78_waits_forever.
Print Assumptions C78_refusals_are_reported_refuted.
Print Assumptions C79_same_arguments_partial.
Print Assumptions C79_negative_offset.
Print Assumptions C79_same_arguments_refuted.
