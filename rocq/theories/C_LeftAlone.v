(** Final theorems of C108: calls of forked children and of signal handlers while another call is unfinished. *)
From Coq Require Import ZArith Ascii String List Bool Lia.
From Verif Require Import M_Base M_Modes M_Registry M_Kernel M_World M_Raw M_Buffered M_Threads M_LeftAlone S_Bytes S_Raw
  S_Locks S_LockFile S_Open S_Buffered S_Demo P_BufRun S_Threads S_LeftAlone P_Threads C_Threads.
Import ListNotations.
Open Scope list_scope.
Open Scope Z_scope.

(** * One thread alone *)

Definition one (ls : locks) (b : bstate) now todo (log : list (nat * tcall * rout)) : pool tcall rout :=
  mkPool ls b [mkThread now todo] log.
Definition at_call (c : tcall) (p : prog rout) ls b todo log : pool tcall rout :=
  match p with PRet r => one ls b None todo (log ++ [(O, c, r)]) | _ => one ls b (Some (c, p)) todo log end.
Lemma settle_one c p todo ls b ls0 b0 now0 todo0 log :
  settle O c p todo ls b (one ls0 b0 now0 todo0 log) = at_call c p ls b todo log.
Proof. destruct p; reflexivity. Qed.

Lemma prun_app {O R} (start : O -> prog R) s1 : forall s2 q q1, prun start s1 q = Some q1 ->
  prun start (s1 ++ s2) q = prun start s2 q1.
Proof.
  induction s1 as [|t s1 IH]; intros s2 q q1 E; cbn [prun app] in *; [congruence|].
  destruct (pstep start t q); [now apply IH|discriminate].
Qed.
Lemma prun_repeat {O R} (start : O -> prog R) n m q q1 : prun start (repeat 0%nat n) q = Some q1 ->
  prun start (repeat 0%nat (n + m)) q = prun start (repeat 0%nat m) q1.
Proof. intros E. rewrite repeat_app. now apply prun_app. Qed.

Section Alone.
Variable start : tcall -> prog rout.
Lemma alone_some c todo log : forall p ls b r ls' b', solo p ls b = Some (r, ls', b') ->
  exists n, prun start (repeat 0%nat n) (at_call c p ls b todo log) = Some (one ls' b' None todo (log ++ [(0%nat, c, r)])).
Proof.
  induction p as [a|X m k IH|l p IH|l p IH]; intros ls b r ls' b' E; cbn [solo] in E.
  - injection E as <- <- <-. exists 0%nat. reflexivity.
  - destruct (m b) as [x b1] eqn:Em. destruct (IH x ls b1 r ls' b' E) as [n Hn]. exists (S n). cbn [repeat prun].
    unfold at_call at 1, one at 1. unfold pstep. cbn [q_thr nth_error q_st q_locks]. rewrite Em.
    change (mkPool ls b [mkThread (Some (c, PAct m k)) todo] log) with (one ls b (Some (c, PAct m k)) todo log).
    rewrite settle_one. exact Hn.
  - destruct (taken_by_someone ls l) eqn:T; [discriminate|]. destruct (IH _ b r ls' b' E) as [n Hn]. exists (S n).
    cbn [repeat prun]. unfold at_call at 1, one at 1. unfold pstep. cbn [q_thr nth_error q_st q_locks]. rewrite T.
    change (mkPool ls b [mkThread (Some (c, PAcq l p)) todo] log) with (one ls b (Some (c, PAcq l p)) todo log).
    rewrite settle_one. exact Hn.
  - destruct (IH _ b r ls' b' E) as [n Hn]. exists (S n). cbn [repeat prun].
    unfold at_call at 1, one at 1. unfold pstep. cbn [q_thr nth_error q_st q_locks].
    change (mkPool ls b [mkThread (Some (c, PRel l p)) todo] log) with (one ls b (Some (c, PRel l p)) todo log).
    rewrite settle_one. exact Hn.
Qed.
Lemma alone_none c todo log : forall p ls b, solo p ls b = None ->
  exists n ls' b' p', prun start (repeat 0%nat n) (at_call c p ls b todo log) = Some (one ls' b' (Some (c, p')) todo log)
    /\ pstep start 0 (one ls' b' (Some (c, p')) todo log) = None.
Proof.
  induction p as [a|X m k IH|l p IH|l p IH]; intros ls b E; cbn [solo] in E.
  - discriminate.
  - destruct (m b) as [x b1] eqn:Em. destruct (IH x ls b1 E) as (n & ls' & b' & p' & Hn & Hs). exists (S n), ls', b', p'.
    split; [|exact Hs]. cbn [repeat prun].
    unfold at_call at 1, one at 1. unfold pstep. cbn [q_thr nth_error q_st q_locks]. rewrite Em.
    change (mkPool ls b [mkThread (Some (c, PAct m k)) todo] log) with (one ls b (Some (c, PAct m k)) todo log).
    rewrite settle_one. exact Hn.
  - destruct (taken_by_someone ls l) eqn:T.
    + exists 0%nat, ls, b, (PAcq l p). split; [reflexivity|]. unfold pstep, one. cbn [q_thr nth_error q_locks]. now rewrite T.
    + destruct (IH _ b E) as (n & ls' & b' & p' & Hn & Hs). exists (S n), ls', b', p'. split; [|exact Hs].
      cbn [repeat prun]. unfold at_call at 1, one at 1. unfold pstep. cbn [q_thr nth_error q_st q_locks]. rewrite T.
      change (mkPool ls b [mkThread (Some (c, PAcq l p)) todo] log) with (one ls b (Some (c, PAcq l p)) todo log).
      rewrite settle_one. exact Hn.
  - destruct (IH _ b E) as (n & ls' & b' & p' & Hn & Hs). exists (S n), ls', b', p'. split; [|exact Hs]. cbn [repeat prun].
    unfold at_call at 1, one at 1. unfold pstep. cbn [q_thr nth_error q_st q_locks].
    change (mkPool ls b [mkThread (Some (c, PRel l p)) todo] log) with (one ls b (Some (c, PRel l p)) todo log).
    rewrite settle_one. exact Hn.
Qed.
Lemma begins c todo ls b log : pstep start 0 (one ls b None (c :: todo) log) = Some (at_call c (start c) ls b todo log).
Proof. unfold pstep, one. cbn [q_thr nth_error q_st q_locks]. reflexivity. Qed.
End Alone.

(** * Locks free *)

Definition usable (w : wrapper) (ls : locks) : Prop := two_free ls /\ (w <> WNone -> l_mutex ls = false).
Lemma starts_does w k c : does (usable w) (starts w k c) (run_tcall k c).
Proof.
  unfold starts. destruct w; cbn [through].
  - intros ls b [H _]. now apply prog_does.
  - apply (does_with _ two_free).
    + intros ls [_ H]. apply H. discriminate.
    + intros ls [[H1 H2] _]. split; assumption.
    + apply prog_does.
  - apply (does_with _ two_free).
    + intros ls [_ H]. apply H. discriminate.
    + intros ls [[H1 H2] _]. split; assumption.
    + apply prog_does.
Qed.
Lemma script_runs w k ls : usable w ls -> forall script b log,
  exists n b' log', prun (starts w k) (repeat 0%nat n) (one ls b None script log) = Some (one ls b' None [] (log ++ log'))
    /\ calls_of 0 log' = script /\ replays (run_tcall k) log' b b'.
Proof.
  intros U. induction script as [|c script IH]; intros b log.
  - exists 0%nat, b, []. rewrite app_nil_r. repeat split. constructor.
  - pose proof (starts_does w k c ls b U) as E.
    destruct (alone_some (starts w k) c script log _ _ _ _ _ _ E) as [n Hn].
    destruct (IH (snd (run_tcall k c b)) (log ++ [(0%nat, c, fst (run_tcall k c b))])) as (m & b' & log' & H1 & H2 & H3).
    exists (S n + m)%nat, b', ((0%nat, c, fst (run_tcall k c b)) :: log').
    split; [|split].
    + rewrite (prun_repeat _ (S n) m _ (one ls (snd (run_tcall k c b)) None script (log ++ [(0%nat, c, fst (run_tcall k c b))]))).
      * rewrite H1. now rewrite <- app_assoc.
      * cbn [repeat prun]. rewrite begins. exact Hn.
    + unfold calls_of in *. cbn [filter fst snd Nat.eqb map]. now rewrite H2.
    + econstructor; [|exact H3]. now destruct (run_tcall k c b).
Qed.
Lemma usable_completes w k ls b script : usable w ls -> completes w k script (mkPool ls b [mkThread None script] []).
Proof.
  intros U. destruct (script_runs w k ls U script b []) as (n & b' & log' & H1 & H2 & H3).
  exists n, (one ls b' None [] log'). split; [exact H1|]. split; [repeat constructor|]. split; [exact H2|exact H3].
Qed.

(** A handler whose moment is outside the locked parts of the unfinished call makes its calls: all kinds of streams, with
    and without wrapper. *)
Theorem C108_handler_partial : forall w k script (q : pool tcall rout),
  l_read (q_locks q) = false -> l_write (q_locks q) = false -> completes w k script (in_handler script q).
Proof. intros w k script q H1 H2. apply usable_completes. split; [split; cbn; assumption|reflexivity]. Qed.

Lemma idle_free w k b scripts sched q : (w = WNone -> k <> BRandom /\ Forall (Forall locked_call) scripts) ->
  prun (starts w k) sched (new_pool b scripts) = Some q -> Forall idle (q_thr q) ->
  q_locks q = all_free /\ exists b', replays (run_tcall k) (q_log q) b b' /\ b' = q_st q.
Proof.
  intros W E Id.
  assert (T : forall L I bl, pinv (run_tcall k) L I scripts b q bl -> q_locks q = all_free /\ exists b', replays (run_tcall k) (q_log q) b b' /\ b' = q_st q).
  { intros L I bl P. destruct (pi_lock _ _ _ _ _ _ _ P) as [(Q1 & Q2 & _)|(h & (p & o & todo & E1 & _) & _)].
    - split; [exact Q1|]. exists bl. split; [exact (pi_log _ _ _ _ _ _ _ P)|now symmetry].
    - apply nth_error_In in E1. rewrite Forall_forall in Id. specialize (Id _ E1). discriminate. }
  assert (Any : Forall (Forall (fun _ : tcall => True)) scripts) by (apply Forall_forall; intros s _; apply Forall_forall; auto).
  assert (Wr : forall st, st = (fun c => secured (prog_of k c)) -> prun st sched (new_pool b scripts) = Some q ->
    q_locks q = all_free /\ exists b', replays (run_tcall k) (q_log q) b b' /\ b' = q_st q).
  { intros st -> E'.
    destruct (prun_inv (fun c => secured (prog_of k c)) (run_tcall k) LMutex (fun _ => True) (fun _ => True)
      (fun c _ => secured_guarded k c) scripts b Any sched _ _ _
      (new_inv (run_tcall k) LMutex (fun _ => True) scripts b Logic.I) E') as [bl P].
    exact (T _ _ _ P). }
  destruct w.
  - destruct (W eq_refl) as [K Hs].
    destruct (prun_inv (prog_of k) (run_tcall k) (lock_of k) (same_stream (b_raw b) (b_size b)) locked_call
      (fun c H => one_way_guarded k _ _ c K H) scripts b Hs sched _ _ _
      (new_inv (run_tcall k) (lock_of k) (same_stream (b_raw b) (b_size b)) scripts b (conj eq_refl eq_refl)) E) as [bl P].
    exact (T _ _ _ P).
  - exact (Wr _ eq_refl E).
  - exact (Wr _ eq_refl E).
Qed.
(** A child forked while no thread is in a call on the stream makes its calls, after those made before the fork; streams
    in a wrapper of either sort, and readers and writers without wrapper (all calls but close()). *)
Theorem C108_child_partial : forall w k b scripts sched q script,
  (w = WNone -> k <> BRandom /\ Forall (Forall locked_call) scripts) ->
  prun (starts w k) sched (new_pool b scripts) = Some q -> Forall idle (q_thr q) ->
  replays (run_tcall k) (q_log q) b (q_st q) /\ completes w k script (fork_child w script q).
Proof.
  intros w k b scripts sched q script W E Id. destruct (idle_free w k b scripts sched q W E Id) as [L (b' & R & ->)].
  split; [exact R|]. unfold fork_child. rewrite L. apply usable_completes. split; [|intros _]; destruct w; try split; reflexivity.
Qed.

(** * Which calls hang *)

Lemma solo_bind {A C} (p : prog (res A)) (f : A -> prog (res C)) ls b :
  solo (pbind p f) ls b = match solo p ls b with
                          | Some (Ok a, ls1, b1) => solo (f a) ls1 b1
                          | Some (Err e, ls1, b1) => Some (Err e, ls1, b1)
                          | None => None end.
Proof. unfold pbind. rewrite solo_seq. destruct (solo p ls b) as [[[[a|e] ls1] b1]|]; reflexivity. Qed.
Lemma solo_act {X} (m : B X) ls b : solo (act m) ls b = Some (fst (m b), ls, snd (m b)).
Proof. unfold act. cbn [solo]. destruct (m b). reflexivity. Qed.
Lemma solo_with_taken {A} l (p : prog A) ls b : taken_by_someone ls l = true -> solo (with_lk l p) ls b = None.
Proof. intros T. unfold with_lk. cbn [solo]. now rewrite T. Qed.
Lemma solo_lift {A} (f : A -> rout) p ls b : solo (plift f p) ls b = None <-> solo p ls b = None.
Proof. unfold plift. rewrite solo_seq. destruct (solo p ls b) as [[[a ls1] b1]|]; cbn [solo]; split; congruence. Qed.
(** the check at the beginning of a method *)
Lemma solo_check {C} (p : prog (res C)) ls b :
  solo (act b_check_closed ;~ p) ls b = None <-> f_closed (b_raw b) = false /\ solo p ls b = None.
Proof.
  rewrite solo_bind, solo_act. unfold b_check_closed. destruct (f_closed (b_raw b)); cbn [fst snd]; split; try intros [? ?]; intros; try split; congruence.
Qed.
Lemma solo_attr {X C} (f : bstate -> X) (g : X -> prog (res C)) ls b : solo (pbind (attr f) g) ls b = solo (g (f b)) ls b.
Proof. unfold attr. rewrite solo_bind, solo_act. reflexivity. Qed.

Lemma fuel_is b : exists m, read_fuel b = (Ok (S m), b).
Proof. unfold read_fuel, bind, on_raw, readall_fuel. destruct b. cbn. eexists. reflexivity. Qed.

Lemma stuck_iff k c ls b : k <> BRandom -> (k = BReader -> l_write ls = false) -> (k = BWriter -> l_read ls = false) ->
  solo (prog_of k c) ls b = None <-> lock_held k ls = true /\ waits k c b = true.
Proof.
  intros K Hr Hw. destruct (lock_held k ls) eqn:T.
  2:{ assert (two_free ls) as F by (destruct k; [split; auto|split; auto|congruence]).
      rewrite (prog_does k c ls b F). split; [discriminate|intros [? _]; discriminate]. }
  assert (E : solo (prog_of k c) ls b = None <-> waits k c b = true); [|rewrite E; tauto].
  destruct k; [| |congruence]; cbn [lock_held] in T.
  - assert (W : forall A (p : prog A) b, solo (with_lk LRead p) ls b = None) by (intros; apply solo_with_taken; exact T).
    assert (Pk : forall n b, solo (p_peek BReader n) ls b = None <-> f_closed (b_raw b) = false).
    { intros n b1. cbn [p_peek]. unfold p_reader_peek. rewrite solo_check, W. tauto. }
    destruct c as [[n|n|n|d|off wh| | | |s]|n|]; cbn [prog_of waits]; rewrite solo_lift.
    + cbn [p_read]. unfold p_reader_read. destruct n as [n|].
      * destruct (n <? -1) eqn:N.
        -- apply Z.ltb_lt in N. cbn [praise solo]. split; [discriminate|]. rewrite Z.leb_le. lia.
        -- apply Z.ltb_ge in N. rewrite W. rewrite Z.leb_le. tauto.
      * rewrite W. tauto.
    + cbn [p_read1]. unfold p_reader_read1. rewrite solo_check, solo_attr. cbv zeta.
      destruct ((if n <? 0 then b_size b else n) =? 0); cbn [pret solo negb]; [|rewrite W];
        destruct (f_closed (b_raw b)); cbn; intuition congruence.
    + rewrite Pk. destruct (f_closed (b_raw b)); cbn; intuition congruence.
    + cbn. split; discriminate.
    + unfold p_seek. destruct (valid_whence wh); cbn [negb praise solo].
      * rewrite solo_check, W. destruct (f_closed (b_raw b)); cbn; intuition congruence.
      * rewrite andb_false_r. split; discriminate.
    + rewrite (tell_does (fun _ => True) BReader ls b Logic.I). split; discriminate.
    + unfold p_size. cbn [p_flush]. rewrite solo_bind.
      destruct (solo (act b_check_closed ;~ act (on_raw raw_flush)) ls b) as [[[[u|e] ls1] b1]|] eqn:F.
      * rewrite solo_act. split; discriminate.
      * split; discriminate.
      * apply solo_check in F as [_ F]. rewrite solo_act in F. discriminate.
    + cbn [p_flush]. rewrite solo_check, solo_act. split; [intros [_ ?]|]; discriminate.
    + cbn [p_truncate]. rewrite solo_check. cbn. split; [intros [_ ?]|]; discriminate.
    + cbn [p_readline]. rewrite solo_bind, solo_act. destruct (fuel_is b) as [m ->]. cbn [fst snd]. rewrite solo_attr.
      cbn [Nat.add p_readline_loop length]. destruct (Z.eqb_spec n 0) as [->|N].
      * cbn. rewrite andb_false_r. split; discriminate.
      * assert ((n <? 0) || (Z.of_nat 0 <? n) = true) as ->
          by (apply orb_true_iff; rewrite !Z.ltb_lt; lia).
        cbn [negb]. rewrite andb_true_r. destruct (f_closed (b_raw b)) eqn:Cl; cbn [negb].
        -- split; [|discriminate]. cbn [p_peek]. unfold p_reader_peek. rewrite solo_bind, solo_bind, solo_act. unfold b_check_closed. rewrite Cl.
           cbn. discriminate.
        -- split; [reflexivity|]. intros _. rewrite solo_bind. now rewrite (proj2 (Pk 1 b) Cl).
    + unfold p_close, closing. rewrite solo_attr. destruct (f_closed (b_raw b)) eqn:Cl; [cbn; split; discriminate|].
      rewrite solo_seq. cbn [p_flush].
      destruct (solo (act b_check_closed ;~ act (on_raw raw_flush)) ls b) as [[[u ls1] b1]|] eqn:F.
      * rewrite solo_seq, solo_act. cbn. split; discriminate.
      * apply solo_check in F as [_ F]. rewrite solo_act in F. discriminate.
  - assert (W : forall A (p : prog A) b, solo (with_lk LWrite p) ls b = None) by (intros; apply solo_with_taken; exact T).
    destruct c as [[n|n|n|d|off wh| | | |s]|n|]; cbn [prog_of waits]; rewrite solo_lift.
    + cbn. split; discriminate.
    + cbn. split; discriminate.
    + cbn. split; discriminate.
    + cbn [p_write]. unfold p_writer_write. rewrite W. tauto.
    + unfold p_seek. destruct (valid_whence wh); cbn [negb praise solo]; [rewrite W; tauto|split; discriminate].
    + rewrite (tell_does (fun _ => True) BWriter ls b Logic.I). split; discriminate.
    + unfold p_size. cbn [p_flush]. rewrite solo_bind, W. tauto.
    + cbn [p_flush]. rewrite W. tauto.
    + cbn [p_truncate]. unfold p_writer_truncate. rewrite W. tauto.
    + cbn [p_readline]. destruct (n =? 0); cbn; split; discriminate.
    + unfold p_close, closing. rewrite solo_bind, W. tauto.
Qed.

Lemma same_end {O R} (start : O -> prog R) : forall n m q q1 q2,
  prun start (repeat 0%nat n) q = Some q1 -> pstep start 0 q1 = None ->
  prun start (repeat 0%nat m) q = Some q2 -> pstep start 0 q2 = None -> q1 = q2.
Proof.
  induction n as [|n IH]; intros m q q1 q2 E1 N1 E2 N2; cbn [repeat prun] in E1.
  - injection E1 as <-. destruct m; cbn [repeat prun] in E2; [congruence|]. rewrite N1 in E2. discriminate.
  - destruct (pstep start 0 q) as [q'|] eqn:E; [|discriminate]. destruct m; cbn [repeat prun] in E2.
    + injection E2 as <-. congruence.
    + rewrite E in E2. eauto.
Qed.
Lemma hangs_not_completes w k script q : hangs w k q -> (length (q_thr q) = 1)%nat -> ~ completes w k script q.
Proof.
  intros (n & q1 & E1 & N1 & F1) L (m & q2 & E2 & F2 & _).
  assert (N2 : pstep (starts w k) 0 q2 = None).
  { pose proof (prun_threads _ _ _ _ E2) as L2. destruct q2 as [ls b [|x thr] log]; [cbn in L2; lia|]. cbn [q_thr] in F2. inversion F2 as [|? ? [Fn Ft] _]; subst.
    unfold pstep. cbn [q_thr nth_error]. destruct x as [now todo]. cbn in Fn, Ft. subst. reflexivity. }
  rewrite (same_end _ _ _ _ _ _ E1 N1 E2 N2) in F1. contradiction.
Qed.
Lemma one_call w k c ls b : hangs w k (mkPool ls b [mkThread None [c]] []) <-> solo (starts w k c) ls b = None.
Proof.
  split.
  - intros (n & q1 & E1 & N1 & F1). destruct (solo (starts w k c) ls b) as [[[r ls'] b']|] eqn:E; [|reflexivity]. exfalso.
    destruct (alone_some (starts w k) c [] [] _ _ _ _ _ _ E) as [m Hm].
    assert (E2 : prun (starts w k) (repeat 0%nat (S m)) (one ls b None [c] []) = Some (one ls' b' None [] [(0%nat, c, r)]))
      by (cbn [repeat prun]; rewrite begins; exact Hm).
    rewrite (same_end _ _ _ _ _ _ E1 N1 E2 eq_refl) in F1. apply F1. repeat constructor.
  - intros E. destruct (alone_none (starts w k) c [] [] _ _ _ E) as (m & ls' & b' & p' & Hm & Hs).
    exists (S m), (one ls' b' (Some (c, p')) [] []). split; [|split; [exact Hs|]].
    + cbn [repeat prun]. rewrite (begins (starts w k) c [] ls b [] : pstep _ _ (mkPool ls b [mkThread None [c]] []) = _). exact Hm.
    + intros F. inversion F as [|? ? [Fn _] _]; subst. discriminate.
Qed.

(** A call through the mutex hangs on the mutex, or inside. *)
Lemma secured_none k c ls b : solo (secured (prog_of k c)) ls b = None <->
  l_mutex ls = true \/ solo (prog_of k c) (set_lock ls LMutex true) b = None.
Proof.
  unfold secured, with_lk. cbn [solo taken_by_someone]. destruct (l_mutex ls); [split; auto|]. rewrite solo_seq.
  destruct (solo (prog_of k c) (set_lock ls LMutex true) b) as [[[r ls1] b1]|]; cbn [solo].
  - split; [discriminate|intros [?|?]; discriminate].
  - split; auto.
Qed.

(** For readers and writers: a call of the child hangs exactly when the lock was taken at the fork and the method waits
    for it, or, with a threading.RLock(), when that was taken. *)
Theorem C108_child_hangs_iff : forall w k c (q : pool tcall rout), k <> BRandom ->
  (k = BReader -> l_write (q_locks q) = false) -> (k = BWriter -> l_read (q_locks q) = false) ->
  hangs w k (fork_child w [c] q) <->
    w = WThreads /\ l_mutex (q_locks q) = true \/ lock_held k (q_locks q) = true /\ waits k c (q_st q) = true.
Proof.
  intros w k c [ls b thr log] K Hr Hw. cbn [q_locks q_st] in *. unfold fork_child. cbn [q_locks q_st]. rewrite one_call.
  unfold starts. destruct w; cbn [through].
  - rewrite stuck_iff by auto. split; [auto|intros [[? _]|H]; [discriminate|exact H]].
  - rewrite secured_none, stuck_iff by auto. assert (lock_held k (set_lock ls LMutex true) = lock_held k ls) as -> by (destruct k; reflexivity).
    split; intros [H|H]; auto. destruct H as [_ H]. auto.
  - rewrite secured_none, stuck_iff by auto.
    assert (lock_held k (set_lock (set_lock ls LMutex false) LMutex true) = lock_held k ls) as -> by (destruct k; reflexivity).
    split; intros [H|H]; auto; [discriminate|]. destruct H. discriminate.
Qed.
(** The same for a handler; the mutexes of the wrapper, being recursive, let it through. *)
Theorem C108_handler_hangs_iff : forall w k c (q : pool tcall rout), k <> BRandom ->
  (k = BReader -> l_write (q_locks q) = false) -> (k = BWriter -> l_read (q_locks q) = false) ->
  hangs w k (in_handler [c] q) <-> lock_held k (q_locks q) = true /\ waits k c (q_st q) = true.
Proof.
  intros w k c [ls b thr log] K Hr Hw. cbn [q_locks q_st] in *. unfold in_handler. cbn [q_locks q_st]. rewrite one_call.
  assert (E : solo (secured (prog_of k c)) (set_lock ls LMutex false) b = None <-> lock_held k ls = true /\ waits k c b = true).
  { rewrite secured_none, stuck_iff by auto.
    assert (lock_held k (set_lock (set_lock ls LMutex false) LMutex true) = lock_held k ls) as -> by (destruct k; reflexivity).
    split; [intros [H|H]; [discriminate|exact H]|auto]. }
  unfold starts. destruct w; cbn [through]; [|exact E|exact E].
  rewrite stuck_iff by auto. assert (lock_held k (set_lock ls LMutex false) = lock_held k ls) as -> by (destruct k; reflexivity). tauto.
Qed.

(** * Refuted *)

Definition busy (k : bkind) : tcall := match k with BReader => TOp (BoRead None) | _ => TOp BoFlush end.
Definition demo_stream : bstate := fresh (fst (demo_f BRandom [])) 8 (snd (demo_f BRandom [])).
Definition caught (w : wrapper) (k : bkind) : pool tcall rout :=
  match prun (starts w k) (repeat 0%nat (match w with WNone => 2 | _ => 3 end)) (new_pool demo_stream [[busy k]]) with
  | Some q => q | None => new_pool demo_stream [] end.
Lemma caught_run w k : prun (starts w k) (repeat 0%nat (match w with WNone => 2 | _ => 3 end)) (new_pool demo_stream [[busy k]]) = Some (caught w k).
Proof. destruct w, k; reflexivity. Qed.
Lemma caught_locks w k : lock_held k (q_locks (caught w k)) = true.
Proof. destruct w, k; reflexivity. Qed.

(** The child of a process one of whose threads is reading, or flushing, waits for ever when it does the same; whatever
    the kind of the stream and the wrapper. *)
Theorem C108_children_refuted : forall w k, ~ children_go_on w k.
Proof.
  intros w k H. specialize (H demo_stream _ _ _ [busy k] (caught_run w k)). revert H.
  apply hangs_not_completes; [|reflexivity]. unfold fork_child. rewrite one_call. destruct w, k; reflexivity.
Qed.
(** So does a handler that interrupts it. *)
Theorem C108_handlers_refuted : forall w k, ~ handlers_go_on w k.
Proof.
  intros w k H. specialize (H demo_stream _ _ _ [busy k] (caught_run w k)). revert H.
  apply hangs_not_completes; [|reflexivity]. unfold in_handler. rewrite one_call. destruct w, k; reflexivity.
Qed.

(** tell() never waits: a handler may call it at any moment, on any kind of stream; so may a child unless the mutex is
    a threading.RLock() that was taken. *)
Theorem C108_tell : forall w k (q : pool tcall rout),
  ~ hangs w k (in_handler [TOp BoTell] q)
  /\ (w = WThreads -> l_mutex (q_locks q) = false -> ~ hangs w k (fork_child w [TOp BoTell] q))
  /\ (w <> WThreads -> ~ hangs w k (fork_child w [TOp BoTell] q)).
Proof.
  intros w k [ls b thr log]. unfold in_handler, fork_child. cbn [q_locks q_st].
  assert (T : forall ls b, solo (prog_of k (TOp BoTell)) ls b <> None).
  { intros l c. cbn [prog_of]. rewrite solo_lift, (tell_does (fun _ => True) k l c Logic.I). discriminate. }
  assert (Se : forall ls b, l_mutex ls = false -> solo (secured (prog_of k (TOp BoTell))) ls b <> None).
  { intros l c M. rewrite secured_none. intros [H|H]; [congruence|revert H; apply T]. }
  split; [|split].
  - rewrite one_call. unfold starts. destruct w; cbn [through]; auto.
  - intros -> M. rewrite one_call. apply Se, M.
  - intros N. rewrite one_call. unfold starts. destruct w; cbn [through]; auto; congruence.
Qed.

(** * The hypotheses are met *)

(** The thread is in the middle of a write of 20 bytes through a multiprocessing mutex; the child and the handler can
    call tell() but not flush(). *)
Definition writing : pool tcall rout :=
  match prun (starts WProcesses BWriter) (repeat 0%nat 6) (new_pool demo_stream [[TOp (BoWrite (repeat 65 20))]]) with
  | Some q => q | None => new_pool demo_stream [] end.
Example ex_writing : prun (starts WProcesses BWriter) (repeat 0%nat 6) (new_pool demo_stream [[TOp (BoWrite (repeat 65 20))]]) = Some writing
  /\ q_locks writing = mkLocks false true true.
Proof. split; vm_compute; reflexivity. Qed.
Example ex_flush_hangs : hangs WProcesses BWriter (fork_child WProcesses [TOp BoFlush] writing)
  /\ hangs WProcesses BWriter (in_handler [TOp BoFlush] writing).
Proof.
  split.
  - apply C108_child_hangs_iff; [discriminate|discriminate|reflexivity|]. right. split; vm_compute; reflexivity.
  - apply C108_handler_hangs_iff; [discriminate|discriminate|reflexivity|]. split; vm_compute; reflexivity.
Qed.
(** A reader can be closed by the handler, a writer cannot. *)
Example ex_close : waits BReader TClose demo_stream = false /\ waits BWriter TClose demo_stream = true.
Proof. split; reflexivity. Qed.
(** Forked between two calls, the child goes on. *)
Example ex_idle : exists q, prun (starts WThreads BWriter) (repeat 0%nat 9) (new_pool demo_stream [[TOp (BoWrite [65]); TOp BoFlush]]) = Some q
  /\ Forall idle (q_thr q) /\ q_log q = [(0%nat, TOp (BoWrite [65]), OInt 1)].
Proof. eexists. split; [vm_compute; reflexivity|]. split; [repeat constructor|reflexivity]. Qed.

Print Assumptions C108_child_partial.
Print Assumptions C108_handler_partial.
Print Assumptions C108_child_hangs_iff.
Print Assumptions C108_handler_hangs_iff.
Print Assumptions C108_tell.
Print Assumptions C108_children_refuted.
Print Assumptions C108_handlers_refuted.
