(** Signal handlers that raise during lock_file() (C106). *)
From Coq Require Import ZArith Ascii String List Bool Lia.
From Verif Require Import M_Base M_Modes M_Registry M_Kernel M_World M_Raw M_Buffered M_Waiting M_Interrupt
  S_Locks S_LockFile S_Interrupt S_Demo P_Raw P_Registry P_Kernel P_Lock P_LockFile P_Turns.
Import ListNotations.
Open Scope Z_scope.
Open Scope list_scope.

(** * The turns *)
Lemma no_cut f q ph w : turn_cut f q NoCut ph w = lock_turn f q ph w.
Proof.
  assert (Ha : forall w, attempt_cut f q NoCut w = turn_attempt f q w).
  { intros w1. unfold attempt_cut, turn_attempt. destruct (lock_attempt _ _ _ _ _) as [[[]|]]; reflexivity. }
  assert (Hk : forall w, kern_cut f q NoCut w = turn_kern f q w).
  { intros w1. unfold kern_cut, turn_kern. destruct (lock_pre _ _ _ _) as [[|[]]]; auto. }
  assert (Hr : forall b w, register_cut f q NoCut b w = turn_register f q b w).
  { intros b w1. unfold register_cut, turn_register. destruct (register_once _ _ _ _ _ _ _ _) as [[[]|]]; auto. }
  unfold turn_cut, lock_turn. destruct ph; auto.
Qed.

(** * What a turn keeps *)
Section Turn.
Variables (f : rawio) (q : lockreq).
Hypothesis Hlen : match q_length q with Some l => 0 <= l | None => True end.
Variables (b : bool) (w0 : world).
Notation linv := (linv f q b w0).
Notation u := (uid_of f).
Notation fd := (fd_of f).

Definition stands (p : turn * world) : Prop :=
  match p with
  | (TWait ph, w) => linv ph w /\ (ph = PhRegWait -> low_level_blocking f q = true)
  | (TDone (Err _), w) => linv PhReg w
  | (TDone (Ok _), w) => exists w1 K, w = set_kern w1 K /\ linv PhKern w1 /\ 0 <= q_off q
      /\ ksetlk (w_kern w1) (w_pid w1) u (q_shared q) (q_off q) (kend (q_off q) (klen (q_length q))) = Some K
  end.

Lemma fail_eq ph e w : linv ph w -> is_reg ph = true ->
  exists w', turn_fail f q true e w = (TDone (Err e), w') /\ linv PhReg w'.
Proof.
  intros L Hr. destruct (unregister_ok f q Hlen _ _ _ _ Hr L) as (w' & E & L' & _).
  exists w'. unfold turn_fail. rewrite E. auto.
Qed.
Lemma fail_stands ph e w : linv ph w -> is_reg ph = true -> stands (turn_fail f q true e w).
Proof. intros L Hr. destruct (fail_eq _ e _ L Hr) as (w' & -> & L'). exact L'. Qed.
Lemma sleep_stands ph n w : linv ph w -> (is_reg ph = true \/ ph = PhReg) ->
  stands (turn_sleep f q ph n (is_reg ph) w).
Proof.
  intros L Hr. unfold turn_sleep. destruct (check_timeout f q (w_clock w) n).
  - destruct Hr as [Hr| ->].
    + rewrite Hr. eapply fail_stands; eauto.
    + exact L.
  - split; [exact L|]. intros ->. destruct Hr; discriminate.
Qed.
Lemma attempt_stands ph w : linv ph w -> is_reg ph = true -> 0 <= q_off q -> stands (turn_attempt f q w).
Proof.
  intros L Hr Ho. unfold turn_attempt. rewrite lock_attempt_eq.
  assert (linv PhKern w) as Lk by (eapply linv_kernphase; [| | |exact L]; auto; discriminate).
  destruct (ksetlk (w_kern w) (w_pid w) u (q_shared q) (q_off q) _) eqn:E.
  - exists w, k. auto.
  - destruct (low_level_blocking f q) eqn:Eb.
    + split; [|auto]. eapply linv_kernphase; [| | |exact L]; auto.
    + apply (sleep_stands PhKern); auto.
Qed.
Lemma kern_stands w : linv PhKern w -> stands (turn_kern f q w).
Proof.
  intros L. unfold turn_kern. destruct (lock_pre_cases f q w) as (io & Hi & [(v & E & Ho)|(e & E)]); rewrite E.
  - apply attempt_stands with PhKern; auto. now apply linv_io.
  - apply (sleep_stands PhKern); auto. now apply linv_io.
Qed.
Lemma register_stands first w : linv PhReg w -> stands (turn_register f q first w).
Proof.
  intros L. unfold turn_register, register_once.
  assert ((if first then check_forking (w_pid w) (w_reg w) else w_reg w) = w_reg w) as Ef.
  { destruct first; auto. apply check_forking_id, (li_rpid _ _ _ _ _ _ L). }
  rewrite Ef.
  destruct (try_locking_range (w_reg w) u fd (q_length q) (q_off q) (q_shared q)) as [r reg] eqn:Et.
  destruct (try_locking_cases _ _ _ _ _ _ _ _ Et) as (LC & P1 & (e & Ee) & P3 & P4).
  destruct (P4 u) as [P5 P6].
  assert (Same : locks_of reg u = locks_of (w_reg w) u -> linv PhReg (set_reg w reg)).
  { intros HL. destruct L. constructor; cbn [w_names w_fds w_newfd w_newino w_pid w_opts w_blk w_reg set_reg w_io w_inodes w_kern]; auto; try discriminate.
    - congruence.
    - intros v Hv. rewrite P3; auto.
    - congruence.
    - congruence.
    - now rewrite HL.
    - intros Hb. destruct (li_quiet Hb) as [Q1 Q2]. rewrite HL. auto. }
  inversion LC as [r' Hfree HL|r' lk Hin Hc HL|r' lk Hin Hc HL]; subst r r'.
  - apply kern_stands. destruct L. cbn [is_reg] in *. rewrite app_nil_r in *.
    constructor; cbn [w_names w_fds w_newfd w_newino w_pid w_opts w_blk w_reg set_reg w_io w_inodes w_kern]; auto; try discriminate.
    + congruence.
    + intros v Hv. rewrite P3; auto.
    + congruence.
    + cbn [nwait] in *. lia.
    + rewrite HL, filter_app'. cbn. rewrite Z.eqb_refl. congruence.
    + intros _. congruence.
    + intros _ lk Hlk Hh Hcs. assert (In lk (filter (fun lk => lk_handle lk =? fd) (locks_of (w_reg w0) u))) as Hm.
      { apply filter_In. split; auto. now apply Z.eqb_eq. }
      rewrite <- li_mine in Hm. apply filter_In in Hm. destruct Hm as [Hm _].
      destruct (Hfree lk Hm). contradiction.
    + intros Hb. destruct (li_quiet Hb) as [Q1 Q2]. split; auto. cbn [is_reg] in *. congruence.
  - specialize (Same HL). destruct (low_level_blocking f q) eqn:Eb.
    + destruct (wait_up f q _ _ _ Same) as (w2 & E2 & L2 & _); [cbn; congruence|]. rewrite E2. split; auto.
    + apply (sleep_stands PhReg); auto.
  - exact (Same HL).
Qed.
Lemma turn_stands ph w : linv ph w -> stands (lock_turn f q ph w).
Proof.
  intros L. destruct ph; cbn [lock_turn].
  - now apply register_stands.
  - destruct (wait_down f q _ _ _ L) as (w' & E & L' & _). rewrite E. now apply register_stands.
  - now apply kern_stands.
  - eapply attempt_stands; eauto. now apply (li_off _ _ _ _ _ _ L).
Qed.
End Turn.

Lemma set_env_self w : set_env w (w_env w) = w.
Proof. now destruct w. Qed.
Lemma linv_act f q w0 ph w ev : linv f q false w0 ph w -> linv f q false w0 ph (apply_env (uid_of f) (fd_of f) ev w).
Proof.
  intros L. rewrite <- (set_env_self (apply_env _ _ ev w)). apply linv_env; [discriminate|exact L].
Qed.

Section Calls.
Variables (f : rawio) (q : lockreq).
Hypothesis Hlen : match q_length q with Some l => 0 <= l | None => True end.

(** What an interruption leads to, when others' records are as the call left them. *)
Lemma inside_stands w0 s w : linv f q false w0 PhKernWait w -> stands f q false w0 (inside f q s w).
Proof.
  intros L. destruct s; cbn [inside].
  - eapply fail_stands; eauto.
  - apply (sleep_stands f q Hlen false w0 PhKern); auto. eapply linv_kernphase; [| | |exact L]; auto; discriminate.
Qed.
Definition stands_or_lost (w0 : world) (p : turn * world) : Prop :=
  stands f q false w0 p \/ exists e w, p = (TDone (Err e), w) /\ linv f q false w0 PhRegWait w.
Lemma interrupt_stands w0 s ph w : linv f q false w0 ph w -> stands_or_lost w0 (interrupt f q s ph w).
Proof.
  intros L. destruct ph; cbn [interrupt].
  - left. exact L.
  - right. eauto.
  - left. eapply fail_stands; eauto.
  - left. now apply inside_stands.
Qed.
Lemma go_stands w0 : forall hs p, Forall in_waits hs -> stands f q false w0 p -> stands_or_lost w0 (go_on f q hs p).
Proof.
  induction hs as [|h hs IH]; intros [t w] H S; [now left|]. inversion H as [|? ? H1 H2]; subst.
  destruct t as [r|ph].
  - destruct h; now left.
  - destruct S as [L _]. destruct h as [ev c|s]; cbn [go_on].
    + cbn in H1. subst c. rewrite no_cut. apply IH; auto. apply turn_stands; auto. now apply linv_act.
    + destruct (interrupt_stands w0 s ph w L) as [S|(e & w' & E & L')]; [now apply IH|].
      rewrite E. right. exists e, w'. split; [|exact L']. destruct hs as [|[]]; reflexivity.
Qed.

Lemma register_norm w : turn_register f q true w = turn_register f q true (norm w).
Proof.
  unfold turn_register, register_once. cbn [w_pid w_reg norm set_reg].
  unfold registry_of. rewrite check_forking_idem. destruct (try_locking_range _ _ _ _ _ _). reflexivity.
Qed.
Lemma call_stands hs w : Forall in_waits hs -> stands_or_lost (norm w) (lock_call f q NoCut hs w).
Proof.
  intros H. unfold lock_call. rewrite no_cut. apply go_stands; auto. cbn [lock_turn]. rewrite register_norm.
  apply register_stands; auto. apply linv_start, norm_rpid.
Qed.
End Calls.

Lemma linv_lost f q b w w' : linv f q b (norm w) PhRegWait w' -> lost_waiter (uid_of f) (fd_of f) w w'.
Proof.
  intros [].
  assert (registry_of w' = w_reg w') as R by now apply registry_of_id.
  assert (w_reg (norm w) = registry_of w) as R0 by reflexivity.
  rewrite R0 in *. unfold locks_of, data_of, waiting_of in *. cbn [is_reg nwait] in *.
  rewrite app_nil_r in *.
  constructor; auto.
  - intros fd. now rewrite li_fds.
  - unfold mine, table. rewrite R. auto.
  - unfold pending. rewrite R. auto.
  - unfold waiters. rewrite R. auto.
  - intros v Hv. rewrite R. auto.
  - unfold own_kernel. rewrite li_pid. auto.
Qed.

Lemma go_app f q : forall a b p, go_on f q (a ++ b) p = go_on f q b (go_on f q a p).
Proof.
  induction a as [|h a IH]; intros b [t w]; [reflexivity|]. cbn [app]. destruct t, h; cbn [go_on]; auto;
    destruct b as [|[]]; reflexivity.
Qed.

(** * C106 *)

(** A lock call, blocking or not, on any area, is interrupted while it waits: for the kernel,
    asleep between two attempts, or for another stream of the process if a timeout was given.
    The exception of the handler comes out, and the process is as before the call: nothing
    recorded, no kernel lock gained or lost, no waiter left.  Others may have acted meanwhile,
    system calls may have failed, and earlier handlers may have raised OSErrors. *)
Theorem C106_interrupted_no_trace_partial f q hs w ph w1 n :
  match q_length q with Some l => 0 <= l | None => True end ->
  Forall in_waits hs ->
  lock_call f q NoCut hs w = (TWait ph, w1) -> ~ in_registry ph ->
  exists w', lock_call f q NoCut (hs ++ [Interrupt (SExc n)]) w = (TDone (Err (EUser n)), w')
    /\ no_trace (uid_of f) (fd_of f) w w'.
Proof.
  intros Hl Hs E Hp. unfold in_registry in Hp. pose proof (call_stands f q Hl hs w Hs) as S. rewrite E in S.
  destruct S as [[L _]|(e & w' & X & _)]; [|discriminate].
  unfold lock_call in *. rewrite go_app, E. cbn [go_on]. destruct ph; cbn [interrupt].
  - eexists. split; [reflexivity|]. eapply linv_no_trace; eauto.
  - congruence.
  - destruct (fail_eq f q Hl false (norm w) _ (raised (SExc n)) _ L eq_refl) as (w' & -> & L').
    eexists. split; [reflexivity|]. eapply linv_no_trace; eauto.
  - cbn [inside]. destruct (fail_eq f q Hl false (norm w) _ (EUser n) _ L eq_refl) as (w' & -> & L').
    eexists. split; [reflexivity|]. eapply linv_no_trace; eauto.
Qed.

(** With a timeout, given to the call or enforced by the options, every interruption in a wait
    is harmless, whatever the handler raises: if the call ends with an exception there is no
    trace of it. *)
Theorem C106_timed_call_no_trace_partial f q hs w e w' :
  match q_length q with Some l => 0 <= l | None => True end ->
  (q_timeout q <> None \/ f_enforced f <> None) ->
  Forall in_waits hs ->
  lock_call f q NoCut hs w = (TDone (Err e), w') -> no_trace (uid_of f) (fd_of f) w w'.
Proof.
  intros Hl Ht Hs E.
  assert (Eb : low_level_blocking f q = false).
  { unfold low_level_blocking. destruct (q_timeout q); [reflexivity|]. destruct (f_enforced f); [reflexivity|].
    destruct Ht; congruence. }
  assert (X : stands f q false (norm w) (lock_call f q NoCut hs w)).
  { assert (G : forall hs p, Forall in_waits hs -> stands f q false (norm w) p -> stands f q false (norm w) (go_on f q hs p)).
    { clear E Hs hs. induction hs as [|h hs IH]; intros [t w1] H S; [exact S|]. inversion H as [|? ? H1 H2]; subst.
      destruct t as [r|ph]; [destruct h; exact S|]. destruct S as [L B]. destruct h as [ev c|s]; cbn [go_on].
      - cbn in H1. subst c. rewrite no_cut. apply IH; auto. apply turn_stands; auto. now apply linv_act.
      - apply IH; auto. destruct ph; cbn [interrupt].
        + exact L.
        + rewrite (B eq_refl) in Eb. discriminate.
        + eapply fail_stands; eauto.
        + now apply inside_stands. }
    unfold lock_call. rewrite no_cut. apply G; auto. cbn [lock_turn]. rewrite register_norm.
    apply register_stands; auto. apply linv_start, norm_rpid. }
  rewrite E in X. eapply linv_no_trace; exact X.
Qed.

(** Interrupted while it waits for another stream of the process, a call without timeout leaves
    one thing: it is counted as waiting for ever. *)
Theorem C106_registry_wait f q hs w w1 s :
  match q_length q with Some l => 0 <= l | None => True end ->
  Forall in_waits hs ->
  lock_call f q NoCut hs w = (TWait PhRegWait, w1) ->
  exists w', lock_call f q NoCut (hs ++ [Interrupt s]) w = (TDone (Err (raised s)), w')
    /\ lost_waiter (uid_of f) (fd_of f) w w'.
Proof.
  intros Hl Hs E. pose proof (call_stands f q Hl hs w Hs) as S. rewrite E in S.
  destruct S as [[L _]|(e & w' & X & _)]; [|discriminate].
  unfold lock_call in *. rewrite go_app, E. cbn [go_on interrupt].
  eexists. split; [reflexivity|]. eapply linv_lost; eauto.
Qed.

(** An OSError of a handler does not interrupt a call that waits in the kernel: it is taken for
    a refusal of the lock, and the call goes on waiting. *)
Theorem C106_oserror_swallowed f q hs w w1 errno :
  0 <= f_spin f -> q_timeout q = None -> f_enforced f = None ->
  lock_call f q NoCut hs w = (TWait PhKernWait, w1) ->
  lock_call f q NoCut (hs ++ [Interrupt (SOSError errno)]) w = (TWait PhKern, w1).
Proof.
  intros Hsp Ht He E. unfold lock_call in *. rewrite go_app, E. cbn [go_on interrupt inside].
  unfold turn_sleep, check_timeout. rewrite Ht, He. destruct (Z.ltb_spec (f_spin f) 0); [lia|reflexivity].
Qed.

(** A call that returns all the same has the lock it asked for. *)
Theorem C106_returned_has_lock f q hs w w' :
  match q_length q with Some l => 0 <= l | None => True end ->
  Forall in_waits hs ->
  lock_call f q NoCut hs w = (TDone (Ok tt), w') ->
  obtained f w w' (q_off q) (q_length q) (q_shared q).
Proof.
  intros Hl Hs E. pose proof (call_stands f q Hl hs w Hs) as S. rewrite E in S.
  destruct S as [(w2 & K & -> & L & Ho & HK)|(e & w2 & X & _)]; [|discriminate].
  destruct (ok_granted f q false w w2 K L HK). constructor; auto.
  - intros fd. now rewrite gr_fds.
  - exists (mkLock (fd_of f) (q_shared q) (q_off q) (range_end (q_off q) (q_length q))).
    split; [auto|]. split; [reflexivity|]. split; [reflexivity|]. intros x. apply range_end_covers.
Qed.

(** * What goes wrong *)
Definition nothing : envev := mkEv 1 None None None.
Definition whole : lockreq := mkReq None 0 false None 0.
Definition timed : lockreq := mkReq None 0 false (Some 10) 0.
(** Process 200 holds the file. *)
Definition other_holds : klocks := [mkSeg 200 (1, 10) false 0 None].
Definition one_stream (kern : klocks) : rawio * world := demo_open "f" true true false (demo [1; 2; 3] [] [] kern).
(** Two streams of the process on the file; the second has locked it. *)
Definition two_streams : rawio * rawio * world :=
  let '(f, w) := one_stream [] in
  let '(g, w') := demo_open "f" true true false w in
  let '(_, w'') := raw_lock_file g PNone PNone PNone 0 SNone w' in (f, g, w'').

(** A call interrupted in the registry leaves a waiter: the lock is then released, both streams
    are closed, and the entry of the file stays in the registry for ever, since it is deleted
    only when nobody waits. *)
Definition all_closed (f g : rawio) (w : world) : world :=
  snd (raw_close f (snd (raw_close g (snd (raw_unlock_file g PNone PNone 0 w))))).
Theorem C106_waiter_refuted :
  ~ (forall f g hs w e w',
       f_enforced f = None -> Forall in_waits hs -> lock_call f whole NoCut hs w = (TDone (Err e), w') ->
       r_map (w_reg (all_closed f g w)) (uid_of f) = None ->
       r_map (w_reg (all_closed f g w')) (uid_of f) = None).
Proof.
  intros H. destruct two_streams as [[f g] w] eqn:Ed.
  specialize (H f g [Interrupt (SExc 1)] w (EUser 1) (snd (lock_call f whole NoCut [Interrupt (SExc 1)] w))).
  vm_compute in Ed. injection Ed as <- <- <-. revert H. vm_compute. intros H.
  specialize (H eq_refl ltac:(repeat constructor) eq_refl eq_refl). discriminate.
Qed.

(** A handler that raises between the return of lockf and the next instruction: the registry
    forgets the lock, the kernel does not.  Other processes are kept out by a lock that no
    unlock_file() can release, until the stream is closed. *)
Theorem C106_after_lock_refuted :
  ~ (forall f c w e w', lock_call f whole c [] w = (TDone (Err e), w') -> own_kernel w' = own_kernel w).
Proof.
  intros H. destruct (one_stream []) as [f w] eqn:Ed.
  specialize (H f (AfterLock (SExc 1)) w (EUser 1) (snd (lock_call f whole (AfterLock (SExc 1)) [] w))).
  vm_compute in Ed. injection Ed as <- <-. revert H. vm_compute. intros H. specialize (H eq_refl). discriminate.
Qed.
Example after_lock_kept : let '(f, w) := one_stream [] in
  let '(t, w') := lock_call f whole (AfterLock (SExc 1)) [] w in
  (t, table w' (1, 10), w_kern w', fst (raw_unlock_file f PNone PNone 0 w'))
  = (TDone (Err (EUser 1)), [], [mkSeg 100 (1, 10) false 0 None], Err ERuntime).
Proof. vm_compute. reflexivity. Qed.

(** One that raises between the return of register_file_lock and the [try]: the record stays,
    without lock, and keeps the other streams of the process out. *)
Theorem C106_after_register_refuted :
  ~ (forall f c w e w', lock_call f whole c [] w = (TDone (Err e), w') ->
       mine w' (uid_of f) (fd_of f) = mine w (uid_of f) (fd_of f)).
Proof.
  intros H. destruct (one_stream []) as [f w] eqn:Ed.
  specialize (H f (AfterRegister (SExc 1)) w (EUser 1) (snd (lock_call f whole (AfterRegister (SExc 1)) [] w))).
  vm_compute in Ed. injection Ed as <- <-. revert H. vm_compute. intros H. specialize (H eq_refl). discriminate.
Qed.
Example after_register_kept : let '(f, w) := one_stream [] in
  let '(g, w) := demo_open "f" true true false w in
  let '(t, w') := lock_call f whole (AfterRegister (SExc 1)) [] w in
  (t, table w' (1, 10), w_kern w', fst (raw_lock_file g (PInt 0) PNone PNone 0 SNone w'))
  = (TDone (Err (EUser 1)), [mkLock 3 false 0 None], [], Err (ELocking EPERM)).
Proof. vm_compute. reflexivity. Qed.

(** The handler of an alarm raises OSError to give up waiting, as handlers of SIGALRM usually
    do: the call goes on. *)
Theorem C106_alarm_refuted :
  ~ (forall f hs w ph w1 s, f_enforced f = None -> Forall in_waits hs -> lock_call f whole NoCut hs w = (TWait ph, w1) ->
       exists w', lock_call f whole NoCut (hs ++ [Interrupt s]) w = (TDone (Err (raised s)), w')).
Proof.
  intros H. destruct (one_stream other_holds) as [f w] eqn:Ed.
  specialize (H f [] w PhKernWait (snd (lock_call f whole NoCut [] w)) (SOSError 4)).
  vm_compute in Ed. injection Ed as <- <-. revert H. vm_compute. intros H.
  destruct (H eq_refl (Forall_nil _) eq_refl) as (w' & X). discriminate.
Qed.

(** * Examples *)
(** Waiting in the kernel, interrupted: no record, no kernel lock. *)
Example interrupted_in_kernel : let '(f, w) := one_stream other_holds in
  let '(t0, w0) := lock_call f whole NoCut [Wake nothing NoCut] w in
  let '(t, w') := lock_call f whole NoCut [Wake nothing NoCut; Interrupt (SExc 1)] w in
  (t0, table w0 (1, 10), t, table w' (1, 10), w_kern w')
  = (TWait PhKernWait, [mkLock 3 false 0 None], TDone (Err (EUser 1)), [], other_holds).
Proof. vm_compute. reflexivity. Qed.
(** With a timeout: asleep. *)
Example interrupted_asleep : let '(f, w) := one_stream other_holds in
  let '(t0, w0) := lock_call f timed NoCut [Wake nothing NoCut] w in
  let '(t, w') := lock_call f timed NoCut [Wake nothing NoCut; Interrupt (SOSError 4)] w in
  (t0, table w0 (1, 10), t, table w' (1, 10), w_kern w')
  = (TWait PhKern, [mkLock 3 false 0 None], TDone (Err (EOS 4)), [], other_holds).
Proof. vm_compute. reflexivity. Qed.
Example interrupted_outside : let '(f, g, w) := two_streams in
  let '(t0, w0) := lock_call f timed NoCut [Wake nothing NoCut] w in
  let '(t, w') := lock_call f timed NoCut [Wake nothing NoCut; Interrupt (SExc 1)] w in
  (t0, t, table w' (1, 10), waiters w' (1, 10)) = (TWait PhReg, TDone (Err (EUser 1)), [mkLock 4 false 0 None], 0).
Proof. vm_compute. reflexivity. Qed.
(** The alarm rings twice; at last the other process releases its lock and the call returns. *)
Example alarm_rings : let '(f, w) := one_stream other_holds in
  let '(t1, _) := lock_call f whole NoCut [Interrupt (SOSError 4); Wake nothing NoCut; Interrupt (SOSError 4); Wake nothing NoCut] w in
  let '(t, w') := lock_call f whole NoCut [Interrupt (SOSError 4); Wake nothing NoCut; Interrupt (SOSError 4);
                                           Wake (mkEv 1 (Some []) None None) NoCut] w in
  (t1, t, table w' (1, 10)) = (TWait PhKernWait, TDone (Ok tt), [mkLock 3 false 0 None]).
Proof. vm_compute. reflexivity. Qed.

Print Assumptions C106_interrupted_no_trace_partial.
Print Assumptions C106_timed_call_no_trace_partial.
Print Assumptions C106_registry_wait.
Print Assumptions C106_oserror_swallowed.
Print Assumptions C106_returned_has_lock.
Print Assumptions C106_waiter_refuted.
Print Assumptions C106_after_lock_refuted.
Print Assumptions C106_after_register_refuted.
Print Assumptions C106_alarm_refuted.
