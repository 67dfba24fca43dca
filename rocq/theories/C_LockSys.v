(** Final statements about the whole lock system (C11-C18): any number of
    processes, threads, streams and files, any interleaving.
    A run is a list of actions accepted by [exec] from [init_sys]; [s_holds]
    lists the lock_file() calls that succeeded and whose lock was not given back
    yet by unlock_file()/close()/termination. *)
From Coq Require Import ZArith List Bool Lia ZifyBool.
From Verif Require Import M_Base M_Registry M_Kernel M_LockSys S_Locks S_LockSys P_Registry P_RegEff P_Kernel P_LockInv P_LockStep P_LockMicro P_LockMain P_LockExtra.
Import ListNotations.
Open Scope Z_scope.

Lemma kl_eq s p u sh b : kernel_lock_on s p u sh b <-> kholds (s_kern s) p u sh b.
Proof. reflexivity. Qed.

Section GENERIC.
Variables strict polite owning : bool.
Variable s : sys.
Hypothesis SI : sinv strict polite owning s.

Lemma hold_alive h : In h (s_holds s) -> exists P, s_procs s (h_pid h) = Some P /\ pinv strict polite owning None (h_pid h) P (s_holds s) (s_kern s).
Proof.
  intros Hin. pose proof (s_dead_h _ _ _ _ SI h Hin) as X. destruct (s_procs s (h_pid h)) as [P|] eqn:E; [|congruence].
  exists P. split; auto. eapply s_live; eauto.
Qed.

Lemma hold_kernel h b : In h (s_holds s) -> in_range (lk_start (h_lock h)) (lk_end (h_lock h)) b ->
  lk_shared (h_lock h) = false \/ strict = true ->
  kholds (s_kern s) (h_pid h) (h_uid h) (lk_shared (h_lock h)) b.
Proof.
  intros Hin Hb Hs. destruct (hold_alive h Hin) as (P & _ & I). destruct h as [p u lk]. simpl in *.
  exact (proj2 (i_hold _ _ _ _ _ _ _ _ I u lk Hin) b Hb Hs).
Qed.

Lemma holds_same_pid h1 h2 : In h1 (s_holds s) -> In h2 (s_holds s) -> h1 <> h2 -> h_pid h1 = h_pid h2 ->
  holds_overlap h1 h2 ->
  lk_handle (h_lock h1) <> lk_handle (h_lock h2)
  /\ lk_shared (h_lock h1) = true /\ lk_shared (h_lock h2) = true /\ strict = false.
Proof.
  intros H1 H2 Hn Hp [Hu Hs]. destruct (hold_alive h1 H1) as (P & _ & I).
  destruct h1 as [p1 u1 l1], h2 as [p2 u2 l2]. simpl in *. subst p2 u2.
  destruct (i_hold _ _ _ _ _ _ _ _ I u1 l1 H1) as [A1 _]. destruct (i_hold _ _ _ _ _ _ _ _ I u1 l2 H2) as [A2 _].
  apply (tab_compat _ _ (i_tab _ _ _ _ _ _ _ _ I u1)); auto. congruence.
Qed.

Lemma holds_other_pid h1 h2 : In h1 (s_holds s) -> In h2 (s_holds s) -> h_pid h1 <> h_pid h2 ->
  holds_overlap h1 h2 ->
  (lk_shared (h_lock h1) = false \/ strict = true) -> (lk_shared (h_lock h2) = false \/ strict = true) ->
  lk_shared (h_lock h1) = true /\ lk_shared (h_lock h2) = true.
Proof.
  intros H1 H2 Hp [Hu (b & B1 & B2)] S1 S2.
  pose proof (hold_kernel h1 b H1 B1 S1) as K1. pose proof (hold_kernel h2 b H2 B2 S2) as K2.
  rewrite <- Hu in K2. exact (s_compat _ _ _ _ SI _ _ _ _ _ _ Hp K1 K2).
Qed.
End GENERIC.

Lemma nth_neq {A} (l : list A) i j x y : NoDup l -> i <> j -> nth_error l i = Some x -> nth_error l j = Some y -> x <> y.
Proof.
  intros ND Hij Hx Hy ->. apply Hij. apply (proj1 (NoDup_nth_error l) ND i j).
  - apply nth_error_Some. congruence.
  - congruence.
Qed.

(** ** C11 *)
(** Two different grants of exclusive locks never have a byte of a file in common. *)
Theorem C11_exclusive_exclusive : forall acts s i j h1 h2,
  exec anything init_sys acts = Some s -> i <> j ->
  nth_error (s_holds s) i = Some h1 -> nth_error (s_holds s) j = Some h2 ->
  lk_shared (h_lock h1) = false -> lk_shared (h_lock h2) = false ->
  ~ holds_overlap h1 h2.
Proof.
  intros acts s i j h1 h2 E Hij H1 H2 S1 S2 Ho.
  pose proof (reach_any _ _ E) as SI.
  pose proof (nth_neq _ _ _ _ _ (reach_nodup _ _ E) Hij H1 H2) as Hne.
  apply nth_error_In in H1, H2.
  destruct (Z.eq_dec (h_pid h1) (h_pid h2)) as [Hp|Hp].
  - destruct (holds_same_pid _ _ _ _ SI h1 h2 H1 H2 Hne Hp Ho) as (_ & X & _). congruence.
  - destruct (holds_other_pid _ _ _ _ SI h1 h2 H1 H2 Hp Ho) as [X _]; auto. congruence.
Qed.

(** An exclusive lock that was granted is owned at kernel level, on every byte,
    until it is given back: also other programs are excluded. *)
Theorem C11_exclusive_is_enforced : forall acts s h b,
  exec anything init_sys acts = Some s -> In h (s_holds s) -> lk_shared (h_lock h) = false ->
  in_range (lk_start (h_lock h)) (lk_end (h_lock h)) b ->
  kernel_lock_on s (h_pid h) (h_uid h) false b
  /\ forall p sh, p <> h_pid h -> ~ kernel_lock_on s p (h_uid h) sh b.
Proof.
  intros acts s h b E Hin Hs Hb. pose proof (reach_any _ _ E) as SI.
  assert (kholds (s_kern s) (h_pid h) (h_uid h) false b) as K.
  { rewrite <- Hs. eapply hold_kernel; eauto. }
  split; [exact K|]. intros p sh Hp K2.
  destruct (s_compat _ _ _ _ SI _ _ _ _ _ _ Hp K2 K). discriminate.
Qed.

(** A granted exclusive lock and any other lock granted in the same process do
    not overlap either. *)
Theorem C11_same_process : forall acts s i j h1 h2,
  exec anything init_sys acts = Some s -> i <> j ->
  nth_error (s_holds s) i = Some h1 -> nth_error (s_holds s) j = Some h2 ->
  h_pid h1 = h_pid h2 -> holds_overlap h1 h2 ->
  lk_handle (h_lock h1) <> lk_handle (h_lock h2)
  /\ lk_shared (h_lock h1) = true /\ lk_shared (h_lock h2) = true.
Proof.
  intros acts s i j h1 h2 E Hij H1 H2 Hp Ho.
  pose proof (reach_any _ _ E) as SI.
  pose proof (nth_neq _ _ _ _ _ (reach_nodup _ _ E) Hij H1 H2) as Hne.
  apply nth_error_In in H1, H2.
  destruct (holds_same_pid _ _ _ _ SI h1 h2 H1 H2 Hne Hp Ho) as (A & B & C & _). auto.
Qed.

(** ** C12 *)
(** Provided no process takes overlapping shared locks through two of its streams,
    two grants that have a byte in common are both shared. *)
Theorem C12_shared_vs_exclusive_partial : forall acts s i j h1 h2,
  exec no_shared_overlap init_sys acts = Some s -> i <> j ->
  nth_error (s_holds s) i = Some h1 -> nth_error (s_holds s) j = Some h2 ->
  holds_overlap h1 h2 ->
  lk_shared (h_lock h1) = true /\ lk_shared (h_lock h2) = true /\ h_pid h1 <> h_pid h2.
Proof.
  intros acts s i j h1 h2 E Hij H1 H2 Ho.
  pose proof (reach_strict _ _ E) as SI.
  assert (exec anything init_sys acts = Some s) as E'.
  { eapply exec_weaken; eauto. }
  pose proof (nth_neq _ _ _ _ _ (reach_nodup _ _ E') Hij H1 H2) as Hne.
  apply nth_error_In in H1, H2.
  destruct (Z.eq_dec (h_pid h1) (h_pid h2)) as [Hp|Hp].
  - destruct (holds_same_pid _ _ _ _ SI h1 h2 H1 H2 Hne Hp Ho) as (_ & _ & _ & X). discriminate.
  - destruct (holds_other_pid _ _ _ _ SI h1 h2 H1 H2 Hp Ho); auto.
Qed.

(** Files and descriptors of the examples. *)
Definition fileA : uid := (1, 1).

(** One call of lock_file(timeout=0-or-more, blocking=false) that succeeds. *)
Definition do_lock (p : Z) (t : nat) (fd : Z) (len : option Z) (off : Z) (sh : bool) : list action :=
  [ALock p t fd len off sh false; ARegister p t; AKern p t].
(** Process [p] with streams of descriptors [fds] on file A. *)
Definition boot (p : Z) (fds : list Z) : list action := ABoot p :: map (fun fd => AOpen p fd fileA) fds.

(** Two streams of process 10 share-lock bytes [0,10); the first one unlocks;
    process 20 then obtains an exclusive lock on the same bytes. *)
Definition run_shared_lost : list action :=
  boot 10 [3; 4] ++ boot 20 [3]
  ++ do_lock 10 0 3 (Some 10) 0 true ++ do_lock 10 0 4 (Some 10) 0 true
  ++ AUnlock 10 0 3 (Some 10) 0 :: repeat (AMicro 10 0) 3
  ++ do_lock 20 0 3 (Some 10) 0 false.

Theorem C12_shared_vs_exclusive_refuted :
  ~ (forall acts s i j h1 h2,
       exec anything init_sys acts = Some s -> i <> j ->
       nth_error (s_holds s) i = Some h1 -> nth_error (s_holds s) j = Some h2 ->
       holds_overlap h1 h2 ->
       lk_shared (h_lock h1) = true /\ lk_shared (h_lock h2) = true).
Proof.
  intros H.
  destruct (exec anything init_sys run_shared_lost) as [s|] eqn:E; [|vm_compute in E; discriminate].
  assert (s_holds s = [mkHold 20 fileA (mkLock 3 false 0 (Some 10)); mkHold 10 fileA (mkLock 4 true 0 (Some 10))]) as HH.
  { assert (option_map s_holds (exec anything init_sys run_shared_lost) =
      Some [mkHold 20 fileA (mkLock 3 false 0 (Some 10)); mkHold 10 fileA (mkLock 4 true 0 (Some 10))]) as X by (vm_compute; reflexivity).
    rewrite E in X. injection X as X. exact X. }
  destruct (H _ s 0%nat 1%nat (mkHold 20 fileA (mkLock 3 false 0 (Some 10))) (mkHold 10 fileA (mkLock 4 true 0 (Some 10))) E) as [X _].
  - discriminate.
  - now rewrite HH.
  - now rewrite HH.
  - split; [reflexivity|]. exists 0. cbn. unfold in_range. lia.
  - discriminate X.
Qed.

(** ** C13 *)
(** Whatever was closed or purged, by whichever thread, a granted lock is still
    enforced at kernel level: for exclusive locks in all runs, for shared locks in
    runs without overlapping shared locks of the same process. *)
Theorem C13_locks_survive_partial : forall acts s h b,
  (exec anything init_sys acts = Some s /\ lk_shared (h_lock h) = false)
  \/ exec no_shared_overlap init_sys acts = Some s ->
  In h (s_holds s) -> in_range (lk_start (h_lock h)) (lk_end (h_lock h)) b ->
  kernel_lock_on s (h_pid h) (h_uid h) (lk_shared (h_lock h)) b.
Proof.
  intros acts s h b [[E Hs]|E] Hin Hb.
  - pose proof (reach_any _ _ E) as SI. eapply hold_kernel; eauto.
  - pose proof (reach_strict _ _ E) as SI. eapply hold_kernel; eauto.
Qed.

(** The lock of a stream is only given back by that stream: no other action
    removes a grant. *)
Theorem C13_only_owner_releases : forall s a s' h,
  step s a = Some s' -> In h (s_holds s) -> ~ In h (s_holds s') ->
  a = AExit (h_pid h)
  \/ (exists t, a = AClose (h_pid h) t (lk_handle (h_lock h)))
  \/ (exists t len, a = AUnlock (h_pid h) t (lk_handle (h_lock h)) len (lk_start (h_lock h))
        /\ range_end (lk_start (h_lock h)) len = lk_end (h_lock h)).
Proof.
  intros s a s' h E Hin Hn.
  assert (forall f, ~ In h (filter f (s_holds s)) -> f h = false) as Hf.
  { intros f X. destruct (f h) eqn:Ef; auto. exfalso. apply X. apply filter_In. auto. }
  destruct a; simpl in E; repeat dm E; injection E as <-; unfold set_proc in Hn; cbn [s_holds] in Hn;
    try (exfalso; apply Hn; exact Hin).
  - apply Hf in Hn. apply negb_false_iff, Z.eqb_eq in Hn. subst p. auto.
  - exfalso. apply Hn. now right.
  - apply Hf in Hn. apply negb_false_iff in Hn. destruct h as [p' u' lk]. apply lock_matches_spec in Hn.
    destruct Hn as (-> & _ & <- & <- & E). right; right. exists t, len. auto.
  - apply Hf in Hn. apply negb_false_iff in Hn. destruct h as [p' u' lk]. apply lock_matches_spec in Hn.
    destruct Hn as (-> & _ & <- & <- & E). right; right. exists t, len. auto.
  - apply Hf in Hn. apply negb_false_iff in Hn. destruct h as [p' u' lk]. apply owned_by_spec in Hn.
    destruct Hn as (-> & _ & <-). right; left. exists t. auto.
  - apply Hf in Hn. apply negb_false_iff in Hn. destruct h as [p' u' lk]. apply owned_by_spec in Hn.
    destruct Hn as (-> & _ & <-). right; left. exists t. auto.
Qed.

(** Same run as for C12, with a close instead of the unlock. *)
Definition run_close_loses : list action :=
  boot 10 [3; 4]
  ++ do_lock 10 0 3 (Some 10) 0 true ++ do_lock 10 0 4 (Some 10) 0 true
  ++ AClose 10 0 3 :: repeat (AMicro 10 0) 6.

Theorem C13_locks_survive_refuted :
  ~ (forall acts s h b,
       exec anything init_sys acts = Some s ->
       In h (s_holds s) -> in_range (lk_start (h_lock h)) (lk_end (h_lock h)) b ->
       kernel_lock_on s (h_pid h) (h_uid h) (lk_shared (h_lock h)) b).
Proof.
  intros H.
  destruct (exec anything init_sys run_close_loses) as [s|] eqn:E; [|vm_compute in E; discriminate].
  assert (option_map (fun s => (s_holds s, s_kern s)) (exec anything init_sys run_close_loses) =
      Some ([mkHold 10 fileA (mkLock 4 true 0 (Some 10))], [])) as X by (vm_compute; reflexivity).
  rewrite E in X. injection X as X1 X2.
  destruct (H _ s (mkHold 10 fileA (mkLock 4 true 0 (Some 10))) 0 E) as (k & Hk & _).
  - rewrite X1. now left.
  - cbn. unfold in_range. lia.
  - rewrite X2 in Hk. destruct Hk.
Qed.

(** ** C14 *)
(** Outside of the critical sections of the process, every kernel lock belongs to
    a grant of the same kind, made through a stream that is still open. *)
Theorem C14_no_residual_lock : forall acts s p P u sh b,
  exec anything init_sys acts = Some s -> s_procs s p = Some P -> no_critical_section P ->
  kernel_lock_on s p u sh b ->
  exists h st, In h (s_holds s) /\ h_pid h = p /\ h_uid h = u /\ lk_shared (h_lock h) = sh
    /\ in_range (lk_start (h_lock h)) (lk_end (h_lock h)) b
    /\ p_streams P (lk_handle (h_lock h)) = Some st /\ st_uid st = u.
Proof.
  intros acts s p P u sh b E Hp Hq K. pose proof (reach_any _ _ E) as SI.
  pose proof (s_live _ _ _ _ SI _ _ Hp) as I.
  destruct (i_kern _ _ _ _ _ _ _ _ I u sh b K) as [(lk & A & B & C)|(t & g & _ & _ & X & _)].
  - destruct (i_hold _ _ _ _ _ _ _ _ I u lk A) as [D _]. destruct (i_own _ _ _ _ _ _ _ _ I u lk D) as (st & S1 & S2).
    exists (mkHold p u lk), st. auto 8.
  - exfalso. exact (Hq t g X).
Qed.

(** A process that does not run owns no kernel lock. *)
Theorem C14_dead_process : forall acts s p u sh b,
  exec anything init_sys acts = Some s -> s_procs s p = None -> ~ kernel_lock_on s p u sh b.
Proof.
  intros acts s p u sh b E Hp K. exact (s_dead_k _ _ _ _ (reach_any _ _ E) _ _ _ _ K Hp).
Qed.

(** Critical sections always come to an end by themselves: a call of
    unlock_file/close that has started runs to completion without error,
    gives the mutex back and changes no grant. *)
Theorem C14_critical_section_ends : forall acts s p P t g,
  exec anything init_sys acts = Some s -> s_procs s p = Some P -> nth_error (p_thr P) t = Some (PProg g) ->
  exists k s' P', exec anything s (repeat (AMicro p t) k) = Some s' /\ s_procs s' p = Some P'
    /\ nth_error (p_thr P') t = Some PIdle /\ p_mutex P' = MFree /\ no_critical_section P'
    /\ s_holds s' = s_holds s.
Proof.
  intros acts s p P t g E Hp Ht. pose proof (reach_any _ _ E) as SI.
  destruct (prog_terminates (meas g) (length (g_closes g)) s p P t g SI Hp Ht) as (k & s' & P' & X1 & X2 & X3 & X4 & _ & X6); auto.
  exists k, s', P'. split; [auto|]. split; [auto|]. split; [auto|]. split; [auto|]. split; [|auto].
  assert (sinv false false false s') as SI'.
  { eapply exec_sinv with (ok := anything); eauto; discriminate. }
  intros t' g' H'. pose proof (i_mutex _ _ _ _ _ _ _ _ (s_live _ _ _ _ SI' _ _ X2) _ _ H'). congruence.
Qed.

(** ** C15 *)
(** Provided streams are unlocked before being closed: a thread that waits and
    was not notified waits for a lock that conflicts and is still recorded. *)
Theorem C15_waiter_has_a_reason_partial : forall acts s p P t q,
  exec unlock_before_close init_sys acts = Some s -> s_procs s p = Some P ->
  nth_error (p_thr P) t = Some (PLockWait q false) ->
  exists lk, In lk (recorded p P (q_uid q)) /\ lk_handle lk <> q_fd q
    /\ ~ (lk_shared lk = true /\ q_shared q = true)
    /\ exists b, in_range (lk_start lk) (lk_end lk) b /\ covers (q_off q) (q_len q) b.
Proof.
  intros acts s p P t q E Hp Ht. pose proof (reach_polite _ _ E) as SI.
  destruct (i_block _ _ _ _ _ _ _ _ (s_live _ _ _ _ SI _ _ Hp) eq_refl t q Ht) as (lk & A & B & C & (b & B1 & B2)); [discriminate|].
  exists lk. split; [exact A|]. split; [exact B|]. split; [exact C|]. exists b. split; auto.
  now apply range_end_covers.
Qed.

(** A notified thread proceeds as soon as the mutex is free: it wakes without
    error, and obtains its lock when nothing recorded overlaps it incompatibly. *)
Theorem C15_notified_proceeds : forall acts s p P t q,
  exec anything init_sys acts = Some s -> s_procs s p = Some P ->
  nth_error (p_thr P) t = Some (PLockWait q true) -> p_mutex P = MFree ->
  exists s' P' c, step s (AWake p t) = Some s' /\ s_procs s' p = Some P' /\ nth_error (p_thr P') t = Some c
    /\ ((forall lk b, In lk (recorded p P (q_uid q)) -> in_range (lk_start lk) (lk_end lk) b ->
           covers (q_off q) (q_len q) b -> lk_handle lk <> q_fd q /\ lk_shared lk = true /\ q_shared q = true) ->
        c = PLockKern q).
Proof.
  intros acts s p P t q E Hp Ht Hm. pose proof (reach_any _ _ E) as SI.
  pose proof (s_live _ _ _ _ SI _ _ Hp) as I.
  assert (EW p (p_reg P) (q_uid q) <> 0) as Hw.
  { rewrite (i_wait _ _ _ _ _ _ _ _ I). pose proof (count_wait_pos _ _ _ _ _ Ht eq_refl). lia. }
  destruct (waiting_own _ _ _ Hw) as [Hpid Hex].
  destruct (waiting_eff p (p_reg P) (q_uid q) (-1) Hpid Hex) as (r1 & Er1 & Hpid1 & WL & WD & WW).
  destruct (register_once false p r1 (q_uid q) (q_fd q) (q_len q) (q_off q) (q_shared q)) as [o r] eqn:Er.
  assert (register_once true p r1 (q_uid q) (q_fd q) (q_len q) (q_off q) (q_shared q) = (o, r)) as Er'.
  { unfold register_once in *. rewrite cf_own; auto. }
  destruct (register_eff _ _ _ _ _ _ _ _ _ Er') as (Hp2 & _ & _ & _ & Hex2 & C).
  destruct (waiting_eff p r (q_uid q) 1 Hp2 Hex2) as (r3 & Er3 & _).
  assert (exists P' c, after_try P t q o r = Some P' /\ nth_error (p_thr P') t = Some c /\ (o = Ok true -> c = PLockKern q)) as (P' & c & A1 & A2 & A3).
  { unfold after_try. rewrite Er3.
    destruct o as [[]|]; [|destruct (q_block q)|]; eexists _, _;
      (split; [reflexivity|]); (split; [eapply nth_update_same; eauto|]); congruence. }
  eexists (set_proc s p (Some P')), P', c. split.
  { simpl. rewrite Hp, Ht. unfold mutex_free. rewrite Hm, Er1, Er, A1. reflexivity. }
  split. { cbn. unfold upd. now rewrite Z.eqb_refl. }
  split; [auto|]. intros Hfree. apply A3.
  assert (forall lk b, In lk (EL p r1 (q_uid q)) -> in_range (lk_start lk) (lk_end lk) b ->
     in_range (q_off q) (range_end (q_off q) (q_len q)) b -> lk_handle lk <> q_fd q /\ lk_shared lk = true /\ q_shared q = true) as HF.
  { intros lk b Hin Hb1 Hb2. rewrite WL in Hin. apply (Hfree lk b); auto. now apply range_end_covers. }
  destruct C as [(-> & _)|[(-> & _ & lk & L1 & (L2 & L3 & b & B1 & B2))|(-> & _ & lk & L1 & (L2 & b & B1 & B2))]]; auto.
  - exfalso. destruct (HF lk b L1 B1 B2) as (_ & X & Y). tauto.
  - exfalso. destruct (HF lk b L1 B1 B2) as (X & _). tauto.
Qed.

(** Process 10, thread 0 locks through stream 3, thread 1 blocks on stream 4;
    thread 0 closes stream 3 (which removes its lock). *)
Definition run_lost_wakeup : list action :=
  boot 10 [3; 4] ++ ASpawn 10 :: do_lock 10 0 3 (Some 10) 0 false
  ++ [ALock 10 1 4 (Some 10) 0 false true; ARegister 10 1]
  ++ AClose 10 0 3 :: repeat (AMicro 10 0) 7.

(** Nobody holds any lock, nobody is in a critical section, and the waiter was not
    notified: it sleeps for ever. *)
Theorem C15_lost_wakeup_refuted :
  ~ (forall acts s p P t q,
       exec anything init_sys acts = Some s -> s_procs s p = Some P ->
       nth_error (p_thr P) t = Some (PLockWait q false) ->
       exists lk, In lk (recorded p P (q_uid q))).
Proof.
  intros H.
  destruct (exec anything init_sys run_lost_wakeup) as [s|] eqn:E; [|vm_compute in E; discriminate].
  assert (match exec anything init_sys run_lost_wakeup with
          | Some s => match s_procs s 10 with
                      | Some P => Some (p_thr P, recorded 10 P fileA, s_holds s, p_mutex P)
                      | None => None end
          | None => None end
      = Some ([PIdle; PLockWait (mkReq 4 fileA (Some 10) 0 false true) false], [], [], MFree)) as X by (vm_compute; reflexivity).
  rewrite E in X. destruct (s_procs s 10) as [P|] eqn:Hp; [|discriminate]. injection X as X1 X2 X3 X4.
  destruct (H _ s 10 P 1%nat (mkReq 4 fileA (Some 10) 0 false true) E Hp) as (lk & Hlk).
  - rewrite X1. reflexivity.
  - cbn [q_uid] in Hlk. rewrite X2 in Hlk. destruct Hlk.
Qed.

(** ** C16 *)
(** The number of waiters stored for a file is the number of threads that wait. *)
Theorem C16_waiter_count : forall acts s p P u e,
  exec anything init_sys acts = Some s -> s_procs s p = Some P ->
  r_pid (p_reg P) = p -> r_map (p_reg P) u = Some e ->
  e_waiting e = Z.of_nat (length (filter (waits_on u) (p_thr P))).
Proof.
  intros acts s p P u e E Hp Hpid He. pose proof (reach_any _ _ E) as SI.
  pose proof (i_wait _ _ _ _ _ _ _ _ (s_live _ _ _ _ SI _ _ Hp) u) as X.
  unfold EW in X. rewrite cf_own in X by auto. unfold waiting_of in X. rewrite He in X. exact X.
Qed.

(** The entry a thread waits on exists for as long as it waits. *)
Theorem C16_entry_kept : forall acts s p P t q n,
  exec anything init_sys acts = Some s -> s_procs s p = Some P ->
  nth_error (p_thr P) t = Some (PLockWait q n) ->
  r_pid (p_reg P) = p /\ exists e, r_map (p_reg P) (q_uid q) = Some e /\ 1 <= e_waiting e.
Proof.
  intros acts s p P t q n E Hp Ht. pose proof (reach_any _ _ E) as SI.
  pose proof (s_live _ _ _ _ SI _ _ Hp) as I.
  pose proof (count_wait_pos _ _ _ _ _ Ht eq_refl) as Hpos.
  pose proof (i_wait _ _ _ _ _ _ _ _ I (q_uid q)) as Hw.
  destruct (waiting_own p (p_reg P) (q_uid q)) as [Hpid (e & He)]; [lia|].
  split; auto. exists e. split; auto.
  unfold EW in Hw. rewrite cf_own in Hw by auto. unfold waiting_of in Hw. rewrite He in Hw. lia.
Qed.

(** ** C17 *)
(** A forked child owns no lock. *)
Theorem C17_child_owns_nothing : forall acts s p c s' C,
  exec anything init_sys acts = Some s -> step s (AFork p c) = Some s' -> s_procs s' c = Some C ->
  (forall u, recorded c C u = [])
  /\ (forall h, In h (s_holds s') -> h_pid h <> c)
  /\ (forall u sh b, ~ kernel_lock_on s' c u sh b).
Proof.
  intros acts s p c s' C E Es Hc. pose proof (reach_any _ _ E) as SI.
  simpl in Es. destruct (s_procs s p) as [P|] eqn:Hp; [|discriminate]. destruct (s_procs s c) eqn:Hc0; [discriminate|].
  destruct (_ && _) eqn:Eg; [|discriminate]. injection Es as <-.
  apply andb_true_iff in Eg. destruct Eg as [_ Eg]. apply negb_true_iff in Eg.
  cbn in Hc. unfold upd in Hc. rewrite Z.eqb_refl in Hc. injection Hc as <-.
  split; [|split].
  - intros u. unfold recorded, check_forking. cbn. rewrite Eg. reflexivity.
  - intros h Hin Ec. cbn in Hin. apply (s_dead_h _ _ _ _ SI) in Hin. congruence.
  - intros u sh b K. cbn in K. apply (s_dead_k _ _ _ _ SI) in K. contradiction.
Qed.

(** No action of another process - forked child or not - changes the locks of a
    process: its grants, its registry and its kernel locks. *)
Theorem C17_locks_out_of_reach : forall s a s' p,
  step s a = Some s' -> acts_on a <> p ->
  s_procs s' p = s_procs s p
  /\ (forall h, h_pid h = p -> (In h (s_holds s') <-> In h (s_holds s)))
  /\ (forall u sh b, kernel_lock_on s' p u sh b <-> kernel_lock_on s p u sh b).
Proof. exact step_other. Qed.

(** ** C18 *)
(** In a process whose streams own their descriptors: once all its streams on a
    file are closed, every descriptor still open on that file was opened by someone
    else, and the registry has forgotten the file. *)
Theorem C18_no_descriptor_left_partial : forall acts s p P u,
  exec owning_streams init_sys acts = Some s -> s_procs s p = Some P -> p_child P = false ->
  no_critical_section P ->
  (forall fd st, p_streams P fd = Some st -> st_uid st <> u) ->
  (forall fd, p_fds P fd = Some u -> p_ext P fd = true)
  /\ r_map (check_forking p (p_reg P)) u = None.
Proof.
  intros acts s p P u E Hp Hch Hq Hno. pose proof (reach_owning _ _ E) as SI.
  pose proof (s_live _ _ _ _ SI _ _ Hp) as I. split.
  - intros fd Hfd. destruct (i_fds _ _ _ _ _ _ _ _ I Hch fd u Hfd) as [|[(st & S1)|[X|(t & g & X & _)]]]; auto.
    + destruct (i_str _ _ _ _ _ _ _ _ I _ _ S1) as (S2 & _). exfalso. apply (Hno fd st S1). congruence.
    + exfalso. destruct (i_pend _ _ _ _ _ _ _ _ I eq_refl u) as [(f & st & A & B)|(t & g & A & _)].
      * intros Y. rewrite Y in X. destruct X.
      * exact (Hno f st A B).
      * exact (Hq t g A).
    + exfalso. exact (Hq t g X).
  - destruct (r_map (check_forking p (p_reg P)) u) as [e|] eqn:Ee; auto. exfalso.
    destruct (reach_einv _ _ E p P Hp u) as [(f & st & A & B)|(t & g & A & _)].
    + unfold entry_at. congruence.
    + exact (Hno f st A B).
    + exact (Hq t g A).
Qed.

(** close()/unlock_file() only close descriptors of closed streams: never one of an
    open stream, never one opened by someone else, never one already closed. *)
Theorem C18_only_zombies_closed : forall acts s p P t g c,
  exec anything init_sys acts = Some s -> s_procs s p = Some P ->
  nth_error (p_thr P) t = Some (PProg g) -> In c (g_closes g) ->
  p_fds P c = Some (g_uid g) /\ p_streams P c = None /\ p_ext P c = false
  /\ recorded p P (g_uid g) = [].
Proof.
  intros acts s p P t g c E Hp Ht Hc. pose proof (reach_any _ _ E) as SI.
  pose proof (i_thr _ _ _ _ _ _ _ _ (s_live _ _ _ _ SI _ _ Hp) _ _ Ht) as PO. cbn in PO.
  destruct (po_cl _ _ _ _ PO c Hc) as (A & B & D & _).
  split; [auto|]. split; [auto|]. split; [auto|].
  apply (po_nolock _ _ _ _ PO). intros X. rewrite X in Hc. destruct Hc.
Qed.

(** An open stream always has its descriptor. *)
Theorem C18_streams_keep_their_descriptor : forall acts s p P fd st,
  exec anything init_sys acts = Some s -> s_procs s p = Some P -> p_streams P fd = Some st ->
  p_fds P fd = Some (st_uid st).
Proof.
  intros acts s p P fd st E Hp Hs. pose proof (reach_any _ _ E) as SI.
  apply (i_str _ _ _ _ _ _ _ _ (s_live _ _ _ _ SI _ _ Hp) _ _ Hs).
Qed.

(** A wrapper (closefd=False) locks; a stream closed meanwhile leaves its
    descriptor pending; a failed lock and the wrapper's close never purge it. *)
Definition run_leak : list action :=
  [ABoot 10; ASpawn 10; AExtOpen 10 5 fileA; AWrap 10 5 false; AOpen 10 3 fileA;
   ALock 10 1 5 (Some 10) 0 false false; ARegister 10 1]
  ++ AClose 10 0 3 :: repeat (AMicro 10 0) 4
  ++ [AKernFail 10 1; AUnregister 10 1; AClose 10 0 5] ++ repeat (AMicro 10 0) 2.

Theorem C18_no_descriptor_left_refuted :
  ~ (forall acts s p P u,
       exec anything init_sys acts = Some s -> s_procs s p = Some P -> p_child P = false ->
       no_critical_section P ->
       (forall fd st, p_streams P fd = Some st -> st_uid st <> u) ->
       (forall fd, p_fds P fd = Some u -> p_ext P fd = true)).
Proof.
  intros H.
  destruct (exec anything init_sys run_leak) as [s|] eqn:E; [|vm_compute in E; discriminate].
  assert (match exec anything init_sys run_leak with
          | Some s => match s_procs s 10 with
                      | Some P => Some (p_thr P, p_child P, p_fds P 3, p_ext P 3)
                      | None => None end
          | None => None end
      = Some ([PIdle; PIdle], false, Some fileA, false)) as X by (vm_compute; reflexivity).
  rewrite E in X. destruct (s_procs s 10) as [P|] eqn:Hp; [|discriminate]. injection X as X1 X2 X3 X4.
  assert (forall fd st, p_streams P fd = Some st -> False) as Hs.
  { intros fd st Hst. assert (match exec anything init_sys run_leak with
          | Some s => match s_procs s 10 with
                      | Some P => forall fd, p_streams P fd = None
                      | None => True end
          | None => True end) as Y.
    { vm_compute. intros [|x|x]; auto. do 3 (destruct x; auto). }
    rewrite E, Hp in Y. rewrite Y in Hst. discriminate. }
  assert (p_ext P 3 = true) as Z; [|congruence].
  apply (H _ s 10 P fileA E Hp X2); auto.
  - intros t g. rewrite X1. destruct t as [|[|[|t]]]; discriminate.
  - intros fd st Hst. exfalso. eauto.
Qed.

(** ** Non-vacuity *)
(** Two processes contend; the second obtains its lock only once the first
    gave its own back. *)
Example ex_contention :
  option_map s_holds (exec anything init_sys
     (boot 10 [3; 4] ++ boot 20 [7] ++ do_lock 10 0 3 (Some 10) 0 false
        ++ do_lock 20 0 7 (Some 5) 10 false ++ do_lock 10 0 4 None 20 true))
  = Some [mkHold 10 fileA (mkLock 4 true 20 None); mkHold 20 fileA (mkLock 7 false 10 (Some 15));
          mkHold 10 fileA (mkLock 3 false 0 (Some 10))].
Proof. vm_compute. reflexivity. Qed.
Example ex_refused :
  exec anything init_sys
     (boot 10 [3] ++ boot 20 [7] ++ do_lock 10 0 3 (Some 10) 0 false ++ do_lock 20 0 7 (Some 5) 9 false) = None.
Proof. vm_compute. reflexivity. Qed.
Example ex_after_unlock :
  option_map (fun s => (s_holds s, s_kern s)) (exec no_shared_overlap init_sys
     (boot 10 [3] ++ boot 20 [7] ++ do_lock 10 0 3 (Some 10) 0 false
        ++ AUnlock 10 0 3 (Some 10) 0 :: repeat (AMicro 10 0) 3 ++ do_lock 20 0 7 (Some 5) 9 false))
  = Some ([mkHold 20 fileA (mkLock 7 false 9 (Some 14))], [mkSeg 20 fileA false 9 (Some 14)]).
Proof. vm_compute. reflexivity. Qed.
(** Closing another stream of the file while a lock is held keeps the lock and
    the descriptor pending; the last close purges everything. *)
Example ex_close_keeps :
  option_map (fun s => (s_kern s, option_map (fun P => (p_fds P 4, recorded 10 P fileA)) (s_procs s 10)))
    (exec anything init_sys (boot 10 [3; 4] ++ do_lock 10 0 3 (Some 10) 0 false ++ AClose 10 0 4 :: repeat (AMicro 10 0) 4))
  = Some ([mkSeg 10 fileA false 0 (Some 10)], Some (Some fileA, [mkLock 3 false 0 (Some 10)])).
Proof. vm_compute. reflexivity. Qed.
Example ex_last_close_purges :
  option_map (fun s => (s_kern s, s_holds s, option_map (fun P => (p_fds P 3, p_fds P 4, p_thr P, r_map (p_reg P) fileA)) (s_procs s 10)))
    (exec owning_streams init_sys (boot 10 [3; 4] ++ do_lock 10 0 3 (Some 10) 0 false ++ AClose 10 0 4 :: repeat (AMicro 10 0) 4
       ++ AClose 10 0 3 :: repeat (AMicro 10 0) 8))
  = Some ([], [], Some (None, None, [PIdle], None)).
Proof. vm_compute. reflexivity. Qed.
(** A blocked thread is woken by unlock_file and gets the lock. *)
Example ex_wakeup :
  option_map (fun s => (s_holds s, option_map p_thr (s_procs s 10)))
    (exec unlock_before_close init_sys
      (boot 10 [3; 4] ++ ASpawn 10 :: do_lock 10 0 3 (Some 10) 0 false
       ++ [ALock 10 1 4 (Some 10) 0 false true; ARegister 10 1]
       ++ AUnlock 10 0 3 (Some 10) 0 :: repeat (AMicro 10 0) 3 ++ [AWake 10 1; AKern 10 1]))
  = Some ([mkHold 10 fileA (mkLock 4 false 0 (Some 10))], Some [PIdle; PIdle]).
Proof. vm_compute. reflexivity. Qed.
(** The child of a fork closes the stream it inherited: the parent keeps its lock. *)
Example ex_fork :
  option_map (fun s => (s_holds s, s_kern s, option_map (fun P => p_fds P 3) (s_procs s 11)))
    (exec anything init_sys
      (boot 10 [3] ++ do_lock 10 0 3 (Some 10) 0 false ++ AFork 10 11 :: AClose 11 0 3 :: repeat (AMicro 11 0) 5))
  = Some ([mkHold 10 fileA (mkLock 3 false 0 (Some 10))], [mkSeg 10 fileA false 0 (Some 10)], Some None).
Proof. vm_compute. reflexivity. Qed.
(** ... and an attempt of the child to lock is refused by the kernel. *)
Example ex_fork_excluded :
  exec anything init_sys
      (boot 10 [3] ++ do_lock 10 0 3 (Some 10) 0 false ++ AFork 10 11 :: do_lock 11 0 3 (Some 1) 0 true) = None
  /\ exec anything init_sys
      (boot 10 [3] ++ AFork 10 11 :: do_lock 11 0 3 (Some 1) 0 true) <> None.
Proof. split; vm_compute; [reflexivity|discriminate]. Qed.

Print Assumptions C11_exclusive_exclusive.
Print Assumptions C11_exclusive_is_enforced.
Print Assumptions C11_same_process.
Print Assumptions C12_shared_vs_exclusive_partial.
Print Assumptions C12_shared_vs_exclusive_refuted.
Print Assumptions C13_locks_survive_partial.
Print Assumptions C13_only_owner_releases.
Print Assumptions C13_locks_survive_refuted.
Print Assumptions C14_no_residual_lock.
Print Assumptions C14_dead_process.
Print Assumptions C14_critical_section_ends.
Print Assumptions C15_waiter_has_a_reason_partial.
Print Assumptions C15_notified_proceeds.
Print Assumptions C15_lost_wakeup_refuted.
Print Assumptions C16_waiter_count.
Print Assumptions C16_entry_kept.
Print Assumptions C17_child_owns_nothing.
Print Assumptions C17_locks_out_of_reach.
Print Assumptions C18_no_descriptor_left_partial.
Print Assumptions C18_only_zombies_closed.
Print Assumptions C18_streams_keep_their_descriptor.
Print Assumptions C18_no_descriptor_left_refuted.
