(** Final theorems about threads on one buffered stream: C75-C77. *)
From Coq Require Import ZArith Ascii String List Bool Lia Permutation.
From Verif Require Import M_Base M_Modes M_Registry M_Kernel M_World M_Raw M_Buffered M_Threads S_Bytes S_Raw S_Locks
  S_LockFile S_Open S_Buffered S_Demo P_Bytes P_Raw P_Close P_Frame P_LockFile P_Open P_Buffered P_BufOps P_BufRun S_Threads P_Threads
  C_Buffered.
Import ListNotations.
Open Scope list_scope.
Open Scope Z_scope.

(** * Steps that leave the raw stream and the buffer size as they are *)
Definition same_stream (f : rawio) (s : Z) (b : bstate) : Prop := b_raw b = f /\ b_size b = s.
Definition keeps {X} (m : bstate -> X * bstate) : Prop := forall b, b_raw (snd (m b)) = b_raw b /\ b_size (snd (m b)) = b_size b.

Lemma keeps_raw {A} (m : rawio -> M A) : keeps (on_raw m).
Proof. intros b. unfold on_raw. destruct (m (b_raw b) (b_w b)). split; reflexivity. Qed.
Lemma keeps_bind {A C} (m : B A) (g : A -> B C) : keeps m -> (forall a, keeps (g a)) -> keeps (bind m g).
Proof.
  intros H G b. unfold bind. specialize (H b). destruct (m b) as [[a|e] b1]; cbn [snd] in *; [|exact H].
  destruct (G a b1), H. split; congruence.
Qed.
Lemma keeps_set {X} (f : bstate -> X) (g : bstate -> bstate) : (forall b, b_raw (g b) = b_raw b /\ b_size (g b) = b_size b) ->
  keeps (fun b => (f b, g b)).
Proof. intros H b. apply H. Qed.
Lemma keeps_closed : keeps b_check_closed.
Proof. intros b. unfold b_check_closed. destruct (f_closed (b_raw b)); split; reflexivity. Qed.
Lemma keeps_mixin_seek p w : keeps (mixin_seek p w).
Proof. apply keeps_bind; [apply keeps_raw|]. intros n. destruct (n <? 0); intros b; split; reflexivity. Qed.
Lemma keeps_mixin_tell : keeps mixin_tell.
Proof. apply keeps_bind; [apply keeps_raw|]. intros n. destruct (n <? 0); intros b; split; reflexivity. Qed.
Lemma keeps_fuel : keeps read_fuel.
Proof. apply keeps_bind; [apply keeps_raw|]. intros n b. split; reflexivity. Qed.
Lemma keeps_reset : keeps reset_read_buf.
Proof. intros b. split; reflexivity. Qed.

Section Conf.
Variables (L : lk) (J : bstate -> Prop).
Hypothesis kept : forall X (m : B X), keeps m -> forall b, J b -> J (snd (m b)).
Notation conf := (confined L J).
Lemma conf_act {X} (m : B X) : keeps m -> conf (act m).
Proof. intros K. split; [|exact (fun _ => Logic.I)]. intros b Hb. apply kept; auto. Qed.
Lemma conf_attr {X} (g : bstate -> X) : conf (attr g).
Proof. apply conf_act. intros b. split; reflexivity. Qed.

Lemma conf_flush_loop n : conf (p_flush_loop n).
Proof.
  induction n as [|n IH]; cbn [p_flush_loop]; [exact Logic.I|]. apply confined_bind; [apply conf_attr|].
  intros [|x l]; [exact Logic.I|]. apply confined_bind; [apply conf_act, keeps_raw|]. intros [z|]; [|exact Logic.I].
  match goal with |- context [if ?c then _ else _] => destruct c end; [exact Logic.I|].
  apply confined_bind; [|intros _; exact IH]. apply conf_act. intros b; split; reflexivity.
Qed.
Lemma conf_flush_unlocked : conf p_flush_unlocked.
Proof.
  apply confined_bind; [apply conf_act, keeps_closed|]. intros _. apply confined_bind; [apply conf_attr|].
  intros n. apply conf_flush_loop.
Qed.
Lemma conf_fill n : forall wanted m out, conf (p_fill_loop n wanted m out).
Proof.
  induction n as [|n IH]; intros; cbn [p_fill_loop]; [exact Logic.I|]. destruct (Z.of_nat (Datatypes.length out) <? m); [|exact Logic.I].
  apply confined_bind; [apply conf_act, keeps_raw|]. intros [[|x c]|]; [exact Logic.I|apply IH|exact Logic.I].
Qed.
Lemma conf_read n : conf (p_read_unlocked n).
Proof.
  apply confined_bind; [apply conf_attr|]. intros rest. cbv zeta. match goal with |- context [if ?c then _ else _] => destruct c end.
  - apply confined_bind; [apply conf_act, keeps_reset|]. intros _. apply confined_bind; [apply conf_act, keeps_raw|].
    intros [c|]; exact Logic.I.
  - match goal with |- context [if ?c then _ else _] => destruct c end.
    + apply conf_act. intros b; split; reflexivity.
    + apply confined_bind; [apply conf_attr|]. intros wanted. apply confined_bind; [apply conf_act, keeps_fuel|]. intros fuel.
      apply confined_bind; [apply conf_fill|]. intros [out nodata]. apply confined_bind; [|intros _; exact Logic.I].
      apply conf_act. intros b; split; reflexivity.
Qed.
Lemma conf_peek n : conf (p_peek_unlocked n).
Proof.
  apply confined_bind; [apply conf_attr|]. intros have. apply confined_bind; [apply conf_attr|]. intros size.
  apply confined_bind; [|intros _; apply conf_attr]. match goal with |- context [if ?c then _ else _] => destruct c end; [|exact Logic.I].
  apply confined_bind; [apply conf_act, keeps_raw|]. intros [[|x c]|]; try exact Logic.I. apply conf_act. intros b; split; reflexivity.
Qed.

End Conf.

Lemma kept_same f s X (m : B X) : keeps m -> forall b, same_stream f s b -> same_stream f s (snd (m b)).
Proof. intros K b [H1 H2]. destruct (K b) as [K1 K2]. split; congruence. Qed.
Lemma kept_true X (m : B X) : keeps m -> forall b : bstate, True -> True.
Proof. auto. Qed.

Section Conf2.
Variables (L : lk) (f : rawio) (s : Z).
Notation conf := (confined L (same_stream f s)).
(** A method that does everything under the lock. *)
Lemma guarded_with {A} (g : A -> rout) (p : prog (res A)) (m : B A) : conf p -> does anyl p m ->
  guarded L (same_stream f s) (plift g (with_lk L p)) (fun b => blift g (m b)).
Proof.
  intros C D. unfold plift, with_lk. cbn [pseq]. apply G_acq.
  - now apply tail_with.
  - intros b _. rewrite !solo_seq, (D _ b Logic.I). cbn [solo]. rewrite set_L_free. destruct (m b) as [[a|e] b1]; reflexivity.
Qed.
Lemma guarded_now (r : rout) m : (forall b, m b = (r, b)) -> guarded L (same_stream f s) (PRet r) m.
Proof. intros H. apply G_ret. auto. Qed.
(** A test of the closed flag comes first. *)
Lemma guarded_check {A} (g : A -> rout) (p : prog (res A)) (m : B A) :
  (f_closed f = false -> guarded L (same_stream f s) (plift g p) (fun b => blift g (m b))) ->
  guarded L (same_stream f s) (plift g (act b_check_closed ;~ p)) (fun b => blift g ((b_check_closed ;; m) b)).
Proof.
  intros H. unfold plift, pbind, act. cbn [pseq]. destruct (f_closed f) eqn:E.
  - apply (G_pre _ _ _ _ _ (Err EValue)).
    + intros b [H1 H2]. unfold b_check_closed. rewrite H1, E. reflexivity.
    + cbn [pseq]. apply G_ret. intros b [H1 H2]. unfold bind, b_check_closed. rewrite H1, E. reflexivity.
  - apply (G_pre _ _ _ _ _ (Ok tt)).
    + intros b [H1 H2]. unfold b_check_closed. rewrite H1, E. reflexivity.
    + apply (guarded_ext _ _ _ (fun b => blift g (m b))); [|exact (H eq_refl)].
      intros b [H1 H2]. unfold bind, b_check_closed. rewrite H1, E. reflexivity.
Qed.
End Conf2.

(** * C75: one-way streams *)

(** The calls that hold the lock all the time (or are refused, or find the stream closed): everything but tell(),
    size(), readline() and close(). *)
Definition locked_call (c : tcall) : Prop :=
  match c with
  | TOp BoTell | TOp BoSize | TReadline _ | TClose => False
  | TOp _ => True
  end.
Definition lock_of (k : bkind) : lk := match k with BReader => LRead | _ => LWrite end.

Lemma one_way_guarded k f s c : k <> BRandom -> locked_call c ->
  guarded (lock_of k) (same_stream f s) (prog_of k c) (run_tcall k c).
Proof.
  intros K Hc. destruct c as [op|n|]; try contradiction.
  apply (guarded_ext _ _ _ (fun b => run_tcall k (TOp op) b)); [reflexivity|].
  destruct k; [| |congruence]; cbn [lock_of].
  - destruct op as [n|n|n|d|off wh| | | |t]; try contradiction; cbn [prog_of run_tcall run_bop].
    + cbn [p_read b_read]. unfold p_reader_read, reader_read.
      destruct (match n with Some k => k <? -1 | None => false end); [apply guarded_now; reflexivity|].
      apply guarded_with; [apply (conf_read _ _ (kept_same f s))|apply read_unlocked_does].
    + cbn [p_read1 b_read1]. unfold p_reader_read1, reader_read1. apply guarded_check. intros E.
      unfold plift, pbind at 1, attr, act. cbn [pseq]. apply (G_pre _ _ _ _ _ (Ok s)).
      { intros b [H1 H2]. now rewrite H2. }
      cbn [pseq]. cbv zeta. destruct ((if n <? 0 then s else n) =? 0) eqn:E0.
      * apply G_ret. intros b [H1 H2]. cbn. rewrite H2, E0. reflexivity.
      * apply (guarded_ext _ _ _ (fun b => blift (fun d => match d with Some d => OBytes d | None => ONone end)
           ((peek_unlocked 1 ;; fun b => read_unlocked (Some (Z.min (if n <? 0 then s else n) (Z.of_nat (Datatypes.length (unread b))))) b) b))).
        { intros b [H1 H2]. cbv zeta. rewrite H2, E0. reflexivity. }
        apply guarded_with; [|apply read1_body_does].
        apply confined_bind; [apply (conf_peek _ _ (kept_same f s))|]. intros _. apply confined_bind; [apply (conf_attr _ _ (kept_same f s))|]. intros z. apply (conf_read _ _ (kept_same f s)).
    + cbn [p_peek b_peek]. apply guarded_check. intros E. apply guarded_with; [apply (conf_peek _ _ (kept_same f s))|apply peek_unlocked_does].
    + apply guarded_now; reflexivity.
    + unfold p_seek, b_seek. destruct (negb (valid_whence wh)); [apply guarded_now; reflexivity|]. apply guarded_check. intros E.
      apply guarded_with; [|apply seek_reader_body_does].
      apply confined_bind; [apply (conf_attr _ _ (kept_same f s))|]. intros z. apply confined_bind; [apply (conf_act _ _ (kept_same f s)), keeps_mixin_seek|]. intros y.
      apply confined_bind; [apply (conf_act _ _ (kept_same f s)), keeps_reset|]. intros _. exact Logic.I.
    + cbn [p_flush b_flush]. apply guarded_check. intros E. unfold plift, act. cbn [pseq]. apply (G_pre _ _ _ _ _ (Ok tt)).
      { intros [f0 s0 r1 r2 r3 w] [H1 H2]. cbn in H1. subst f0. unfold on_raw, raw_flush, check_closed. cbn. rewrite E. reflexivity. }
      apply G_ret. intros [f0 s0 r1 r2 r3 w] [H1 H2]. cbn in H1. subst f0. unfold on_raw, raw_flush, check_closed. cbn. rewrite E. reflexivity.
    + cbn [p_truncate b_truncate]. apply guarded_check. intros E. apply guarded_now; reflexivity.
  - destruct op as [n|n|n|d|off wh| | | |t]; try contradiction; cbn [prog_of run_tcall run_bop].
    + apply guarded_now; reflexivity.
    + apply guarded_now; reflexivity.
    + apply guarded_now; reflexivity.
    + cbn [p_write b_write]. unfold p_writer_write. apply guarded_with; [|apply writer_write_body_does].
      apply confined_bind; [apply (conf_act _ _ (kept_same f s)), keeps_closed|]. intros _. apply confined_bind; [apply (conf_attr _ _ (kept_same f s))|]. intros full.
      apply confined_bind; [destruct full; [apply (conf_flush_unlocked _ _ (kept_same f s))|exact Logic.I]|]. intros _.
      apply confined_bind; [apply (conf_act _ _ (kept_same f s)); intros b; split; reflexivity|]. intros _. apply confined_bind; [apply (conf_attr _ _ (kept_same f s))|]. intros full'.
      cbv zeta. destruct full'; [|exact Logic.I]. apply confined_seq; [apply (conf_flush_unlocked _ _ (kept_same f s))|]. intros [u|[]]; try exact Logic.I.
      apply (conf_act _ _ (kept_same f s)). intros b. destruct (b_size b <? Z.of_nat (Datatypes.length (b_wbuf b))); split; reflexivity.
    + unfold p_seek, b_seek. destruct (negb (valid_whence wh)); [apply guarded_now; reflexivity|].
      apply guarded_with.
      * apply confined_bind; [apply (conf_flush_unlocked _ _ (kept_same f s))|]. intros _. apply (conf_act _ _ (kept_same f s)), keeps_mixin_seek.
      * apply does_bind; [apply flush_unlocked_does|intros _; apply does_act].
    + cbn [p_flush b_flush]. apply guarded_with; [apply (conf_flush_unlocked _ _ (kept_same f s))|apply flush_unlocked_does].
    + cbn [p_truncate b_truncate]. unfold p_writer_truncate. apply guarded_with; [|apply truncate_body_does].
      apply confined_bind; [apply (conf_flush_unlocked _ _ (kept_same f s))|]. intros _.
      apply confined_bind; [destruct t; [exact Logic.I|apply (conf_act _ _ (kept_same f s)), keeps_raw]|]. intros z. apply (conf_act _ _ (kept_same f s)), keeps_raw.
Qed.

(** Any number of threads, any calls of the kind above, any schedule: the calls that have returned are explained by a
    serial execution, in the order in which they returned (so the order of two calls one of which returned before the
    other began, and the order of each thread, are kept); when no call is in progress, the stream is as that serial
    execution leaves it. *)
Theorem C75_one_way_streams_are_serial : forall k b scripts sched q,
  k <> BRandom -> Forall (Forall locked_call) scripts ->
  prun (prog_of k) sched (new_pool b scripts) = Some q ->
  (exists b', replays (run_tcall k) (q_log q) b b' /\ (Forall idle (q_thr q) -> b' = q_st q))
  /\ forall t s, nth_error scripts t = Some s ->
       exists x, nth_error (q_thr q) t = Some x /\ exists now, s = calls_of t (q_log q) ++ now ++ t_todo x
         /\ (idle x -> now = []) /\ (length now <= 1)%nat.
Proof.
  intros k b scripts sched q K Hs E.
  destruct (serial (prog_of k) (run_tcall k) (lock_of k) (same_stream (b_raw b) (b_size b)) locked_call
    (fun c H => one_way_guarded k _ _ c K H) scripts b sched q (conj eq_refl eq_refl) Hs E) as [H1 H2]. split; [exact H1|].
  intros t s Ht. destruct (nth_error (q_thr q) t) as [x|] eqn:Hx.
  - exists x. split; [reflexivity|]. destruct (H2 t x Hx) as (s' & S1 & S2). rewrite Ht in S1. injection S1 as <-.
    exists (now_list x). split; [exact S2|]. unfold idle, now_list. destruct (t_now x) as [[o p]|]; cbn; split; auto; discriminate.
  - exfalso. apply nth_error_None in Hx. assert (t < length scripts)%nat by (apply nth_error_Some; congruence).
    pose proof (prun_threads (prog_of k) sched (new_pool b scripts) q E) as N. cbn [new_pool q_thr] in N. rewrite map_length in N. lia.
Qed.

(** No deadlock: as long as a thread has a call to make or to finish, some thread can go on. *)
Theorem C75_no_deadlock : forall k b scripts sched q,
  k <> BRandom -> Forall (Forall locked_call) scripts ->
  prun (prog_of k) sched (new_pool b scripts) = Some q ->
  Forall finished (q_thr q) \/ exists t q', pstep (prog_of k) t q = Some q'.
Proof.
  intros k b scripts sched q K Hs E.
  exact (goes_on (prog_of k) (run_tcall k) (lock_of k) (same_stream (b_raw b) (b_size b)) locked_call
    (fun c H => one_way_guarded k _ _ c K H) scripts b sched q (conj eq_refl eq_refl) Hs E).
Qed.

(** The calls that returned and their results. *)
Definition ops_of (log : list (nat * tcall * rout)) : list bop :=
  flat_map (fun x => match snd (fst x) with TOp op => [op] | _ => [] end) log.
Definition outs_of (log : list (nat * tcall * rout)) : list rout := map snd log.

Lemma replays_run k log b b' : Forall (fun x => locked_call (snd (fst x))) log -> replays (run_tcall k) log b b' ->
  run_bops k (ops_of log) b = (outs_of log, b').
Proof.
  intros F H. induction H as [b|t o r l b b1 b2 E H IH]; [reflexivity|].
  inversion F as [|? ? F1 F2]; subst. cbn [fst snd] in F1. destruct o as [op|n|]; try contradiction.
  cbn [ops_of flat_map fst snd app run_bops outs_of map]. cbn [run_tcall] in E. rewrite E.
  fold (ops_of l). rewrite (IH F2). reflexivity.
Qed.
Lemma log_calls {O R : Type} (P : O -> Prop) (log : list (nat * O * R)) scripts :
  (forall t s, nth_error scripts t = Some s -> Forall P s) ->
  (forall t, (exists o r, In (t, o, r) log) -> exists s rest, nth_error scripts t = Some s /\ s = calls_of t log ++ rest) ->
  Forall (fun x => P (snd (fst x))) log.
Proof.
  intros H G. apply Forall_forall. intros [[t o] r] Hin. cbn [fst snd].
  destruct (G t (ex_intro _ o (ex_intro _ r Hin))) as (s & rest & S1 & S2). specialize (H t s S1). rewrite Forall_forall in H.
  apply H. rewrite S2. apply in_or_app. left. unfold calls_of. apply in_map_iff. exists (t, o, r). split; [reflexivity|].
  apply filter_In. split; [exact Hin|]. cbn. apply Nat.eqb_refl.
Qed.
Lemma log_locked (P : tcall -> Prop) k b scripts sched q : (forall c, P c -> locked_call c) ->
  k <> BRandom -> Forall (Forall P) scripts ->
  prun (prog_of k) sched (new_pool b scripts) = Some q -> Forall (fun x => P (snd (fst x))) (q_log q).
Proof.
  intros HP K Hs E.
  assert (Hs' : Forall (Forall locked_call) scripts).
  { apply Forall_forall. intros s Hin. rewrite Forall_forall in Hs. specialize (Hs s Hin).
    apply Forall_forall. intros c Hc. rewrite Forall_forall in Hs. auto. }
  apply (log_calls P (q_log q) scripts).
  - intros t s Ht. apply nth_error_In in Ht. rewrite Forall_forall in Hs. auto.
  - intros t (o & r & Hin).
    assert (Hlt : (t < length scripts)%nat).
    { pose proof (log_threads (prog_of k) sched (new_pool b scripts) q E (fun _ _ _ F => match F with end) t o r Hin) as N.
      cbn [new_pool q_thr] in N. now rewrite map_length in N. }
    destruct (nth_error scripts t) as [s|] eqn:Ht; [|apply nth_error_None in Ht; lia].
    destruct (proj2 (C75_one_way_streams_are_serial k b scripts sched q K Hs' E) t s Ht) as (x & _ & now & S & _). eauto.
Qed.

(** On a regular file, for a stream whose system calls do not fail: what the threads see is what they would see of a
    byte array with one cursor, one call at a time; and a final flush() puts that array in the file. *)
Theorem C75_threads_see_a_byte_array : forall k f size w o i scripts sched q,
  k <> BRandom -> setting k f size w o i -> Forall (Forall locked_call) scripts ->
  prun (prog_of k) sched (new_pool (fresh f size w) scripts) = Some q ->
  exists c p, baruns (acc_kind k) (n_data i, o_pos o) (ops_of (q_log q)) (outs_of (q_log q)) (c, p)
    /\ (Forall idle (q_thr q) ->
        exists b'', b_flush k (q_st q) = (Ok tt, b'') /\ holds_file (b_w b'') (o_uid o) c).
Proof.
  intros k f size w o i scripts sched q K S Hs E.
  destruct (proj1 (C75_one_way_streams_are_serial k _ scripts sched q K Hs E)) as (b' & R & Id).
  pose proof (replays_run k _ _ _ (log_locked locked_call k _ _ _ _ (fun c H => H) K Hs E) R) as X.
  destruct (C31_one_way_streams_refine k f size _ w o i _ b' K S X) as (c & p & A & Fl).
  exists c, p. split; [exact A|]. intros Hi. rewrite <- (Id Hi). exact Fl.
Qed.

(** Threads that only read: every byte goes to exactly one call. *)
Definition read_call (c : tcall) : Prop := match c with TOp (BoRead (Some n)) => 0 <= n | _ => False end.
Definition bytes_of (r : rout) : list Z := match r with OBytes d => d | _ => [] end.

Lemma reads_slice a : ba_rd a = true -> forall log c p c' p', 0 <= p -> Forall (fun x => read_call (snd (fst x))) log ->
  baruns a (c, p) (ops_of log) (outs_of log) (c', p') ->
  c' = c /\ slice_at c p (flat_map bytes_of (outs_of log)) /\ p' = p + len (flat_map bytes_of (outs_of log))
  /\ Forall (fun r => exists d, r = OBytes d) (outs_of log).
Proof.
  intros Ra. induction log as [|[[t call] r] log IH]; intros c p c' p' Hp F H.
  - cbn in H. inversion H; subst. cbn. repeat split; auto; try lia. cbn. intros j Hj. unfold len in Hj. cbn in Hj. lia.
  - inversion F as [|? ? F1 F2]; subst. cbn [fst snd] in F1. destruct call as [op|n|]; try contradiction. destruct op as [[n|]|n|n|d|off wh| | | |s]; try contradiction.
    cbn [read_call] in F1. cbn [ops_of flat_map outs_of map fst snd app] in *. fold (ops_of log) in H. fold (outs_of log) in *.
    inversion H as [|s op out [c1 p1] ops outs s2 B1 B2]; subst.
    assert (exists d, r = OBytes d /\ c1 = c /\ p1 = p + len d /\ slice_at c p d) as (d & -> & -> & -> & Sl).
    { inversion B1; subst; try congruence; try lia.
      - match goal with X : _ \/ _ |- _ => destruct X as [[? X]|[? X]]; discriminate end.
      - match goal with X : _ \/ _ |- _ => destruct X as [X|X]; [discriminate|injection X as X; lia] end.
      - eauto. }
    pose proof (len_nonneg d). destruct (IH c (p + len d) c' p' ltac:(lia) F2 B2) as (-> & S2 & -> & Fo).
    cbn [bytes_of]. split; [reflexivity|]. split; [now apply slice_app|]. split; [rewrite len_app; lia|]. constructor; eauto.
Qed.

(** The chunks the calls returned, in the order in which they returned, are consecutive pieces of the file. *)
Theorem C75_each_byte_to_one_reader : forall f size w o i scripts sched q,
  setting BReader f size w o i -> Forall (Forall read_call) scripts ->
  prun (prog_of BReader) sched (new_pool (fresh f size w) scripts) = Some q ->
  Forall (fun r => exists d, r = OBytes d) (outs_of (q_log q))
  /\ slice_at (n_data i) (o_pos o) (flat_map bytes_of (outs_of (q_log q))).
Proof.
  intros f size w o i scripts sched q S Hs E.
  assert (HP : forall c, read_call c -> locked_call c).
  { intros [[[n|]|n|n|d|off wh| | | |s]|n|]; cbn; auto; contradiction. }
  assert (Hs' : Forall (Forall locked_call) scripts) by (eapply Forall_impl; [|exact Hs]; intros s; apply Forall_impl; exact HP).
  destruct (C75_threads_see_a_byte_array BReader f size w o i scripts sched q ltac:(discriminate) S Hs' E) as (c & p & A & _).
  pose proof (lv_pos _ _ _ _ (se_live _ _ _ _ _ _ S)).
  destruct (reads_slice (acc_kind BReader) eq_refl (q_log q) (n_data i) (o_pos o) c p ltac:(auto)
     (log_locked read_call BReader _ _ _ _ HP ltac:(discriminate) Hs E) A) as (_ & X & _ & Y). auto.
Qed.

(** Threads that only write records: the file is the records one after the other, none of them mixed with another. *)
Definition write_call (c : tcall) : Prop := match c with TOp (BoWrite _) => True | _ => False end.
Definition record_of (c : tcall) : list Z := match c with TOp (BoWrite d) => d | _ => [] end.

Lemma writes_stored a : ba_wr a = true -> forall log c p c' p', 0 <= p -> Forall (fun x => write_call (snd (fst x))) log ->
  baruns a (c, p) (ops_of log) (outs_of log) (c', p') ->
  c' = write_at c (Z.to_nat p) (flat_map (fun x => record_of (snd (fst x))) log)
  /\ Forall (fun x => snd x = OInt (len (record_of (snd (fst x))))) log.
Proof.
  intros Wa. induction log as [|[[t call] r] log IH]; intros c p c' p' Hp F H.
  - cbn in H. inversion H; subst. cbn [flat_map]. split; [now rewrite write_at_nil_r|constructor].
  - inversion F as [|? ? F1 F2]; subst. cbn [fst snd] in F1. destruct call as [[n|n|n|d|off wh| | | |s]|n|]; try contradiction.
    cbn [ops_of flat_map outs_of map fst snd app] in *. fold (ops_of log) in H. fold (outs_of log) in *.
    inversion H as [|s op out [c1 p1] ops outs s2 B1 B2]; subst.
    assert (r = OInt (len d) /\ c1 = write_at c (Z.to_nat p) d /\ p1 = p + len d) as (-> & -> & ->).
    { inversion B1; subst; try congruence.
      - match goal with X : _ \/ _ |- _ => destruct X as [[? X]|[? X]]; discriminate end.
      - split; [reflexivity|]. split; [|reflexivity]. eapply stored_at_fun; [eassumption|]. now apply stored_write. }
    pose proof (len_nonneg d). destruct (IH _ (p + len d) _ _ ltac:(lia) F2 B2) as (-> & Fo). cbn [record_of].
    rewrite write_at_pos by auto. split; [reflexivity|]. constructor; auto.
Qed.

Theorem C75_records_are_not_mixed : forall f size w o i scripts sched q,
  setting BWriter f size w o i -> n_data i = [] -> o_pos o = 0 -> Forall (Forall write_call) scripts ->
  prun (prog_of BWriter) sched (new_pool (fresh f size w) scripts) = Some q -> Forall finished (q_thr q) ->
  Forall (fun x => snd x = OInt (len (record_of (snd (fst x))))) (q_log q)
  /\ (forall t s, nth_error scripts t = Some s -> calls_of t (q_log q) = s)
  /\ exists b'', b_flush BWriter (q_st q) = (Ok tt, b'')
      /\ holds_file (b_w b'') (o_uid o) (flat_map (fun x => record_of (snd (fst x))) (q_log q)).
Proof.
  intros f size w o i scripts sched q S D P0 Hs E Fin.
  assert (HP : forall c, write_call c -> locked_call c).
  { intros [[n|n|n|d|off wh| | | |s]|n|]; cbn; auto; contradiction. }
  assert (Hs' : Forall (Forall locked_call) scripts) by (eapply Forall_impl; [|exact Hs]; intros s; apply Forall_impl; exact HP).
  assert (Id : Forall idle (q_thr q)) by (eapply Forall_impl; [|exact Fin]; intros x [X _]; exact X).
  destruct (C75_threads_see_a_byte_array BWriter f size w o i scripts sched q ltac:(discriminate) S Hs' E) as (c & p & A & Fl).
  rewrite D, P0 in A.
  destruct (writes_stored (acc_kind BWriter) eq_refl (q_log q) [] 0 c p ltac:(lia)
     (log_locked write_call BWriter _ _ _ _ HP ltac:(discriminate) Hs E) A) as (-> & X). split; [exact X|]. split.
  - intros t s Ht. destruct (proj2 (C75_one_way_streams_are_serial BWriter _ scripts sched q ltac:(discriminate) Hs' E) t s Ht)
      as (x & Hx & now & Es & Hn & _).
    rewrite Forall_forall in Fin. destruct (Fin x (nth_error_In _ _ Hx)) as [F1 F2]. rewrite (Hn F1), F2, !app_nil_r in Es. auto.
  - destruct (Fl Id) as (b'' & F1 & F2). exists b''. split; [exact F1|]. change (Z.to_nat 0) with (length (@nil Z)) in F2. rewrite write_at_end in F2. exact F2.
Qed.

(** * C76: streams in the thread-safe wrapper *)

Section Mutex.
Notation conf := (confined LMutex (fun _ => True)).
Lemma mx_act {X} (m : B X) : conf (act m).
Proof. split; [auto|exact (fun _ => Logic.I)]. Qed.
Lemma mx_attr {X} (g : bstate -> X) : conf (attr g).
Proof. apply mx_act. Qed.
Lemma mx_with {A} l (p : prog A) : l <> LMutex -> conf p -> conf (with_lk l p).
Proof. intros N C. split; [auto|]. apply confined_seq; [auto|]. intros a. split; [auto|exact Logic.I]. Qed.
Lemma mx_ret {A} (a : A) : conf (PRet a). Proof. exact Logic.I. Qed.

Ltac mx := repeat match goal with
  | |- conf (pbind _ _) => apply confined_bind; [|intros ?]
  | |- conf (pseq _ _) => apply confined_seq; [|intros ?]
  | |- conf (act _) => apply mx_act
  | |- conf (attr _) => apply mx_attr
  | |- conf (pret _) => apply mx_ret
  | |- conf (praise _) => apply mx_ret
  | |- conf (PRet _) => apply mx_ret
  | |- conf (with_lk _ _) => apply mx_with; [discriminate|]
  | |- conf p_flush_unlocked => apply (conf_flush_unlocked _ _ kept_true)
  | |- conf (p_read_unlocked _) => apply (conf_read _ _ kept_true)
  | |- conf (p_peek_unlocked _) => apply (conf_peek _ _ kept_true)
  | |- conf (match ?x with _ => _ end) => destruct x
  | |- conf (let '(_, _) := ?x in _) => destruct x
  | |- conf (let x := _ in _) => cbv zeta
  end.

Lemma mx_flush k : conf (p_flush k).
Proof. destruct k; cbn [p_flush]; mx. Qed.
Lemma mx_write k d : conf (p_write k d).
Proof. destruct k; cbn [p_write]; unfold p_writer_write; mx. Qed.
Lemma mx_seek k p w : conf (p_seek k p w).
Proof. unfold p_seek. destruct (negb (valid_whence w)); [mx|]. destruct k; mx; try apply mx_flush; mx. Qed.
Lemma mx_tell k : conf (p_tell k).
Proof. destruct k; cbn [p_tell]; unfold p_reader_tell, p_writer_tell; mx. Qed.
Lemma mx_truncate k s : conf (p_truncate k s).
Proof. destruct k; cbn [p_truncate]; unfold p_writer_truncate; mx. apply mx_tell. Qed.
Lemma mx_read k n : conf (p_read k n).
Proof. destruct k; cbn [p_read]; unfold p_reader_read; mx. apply mx_flush. Qed.
Lemma mx_peek k n : conf (p_peek k n).
Proof. destruct k; cbn [p_peek]; unfold p_reader_peek; mx. apply mx_flush. Qed.
Lemma mx_read1 k n : conf (p_read1 k n).
Proof. destruct k; cbn [p_read1]; unfold p_reader_read1; mx. apply mx_flush. Qed.
Lemma mx_readline k n : conf (p_readline k n).
Proof.
  assert (G : forall f k n d, conf (p_readline_loop f k n d)).
  { induction f as [|f IH]; intros; cbn [p_readline_loop]; mx; [apply mx_peek|apply mx_read|apply IH]. }
  destruct k; cbn [p_readline]; mx; apply G.
Qed.
Lemma mx_prog k c : conf (prog_of k c).
Proof.
  destruct c as [[n|n|n|d|off wh| | | |s]|n|]; cbn [prog_of]; unfold plift; apply confined_seq; try (intros r; exact Logic.I);
    auto using mx_read, mx_read1, mx_peek, mx_write, mx_seek, mx_tell, mx_flush, mx_truncate, mx_readline.
  - unfold p_size. mx. apply mx_flush.
  - unfold p_close, closing. destruct k; mx; apply mx_flush.
Qed.
End Mutex.

Lemma tail_one (p : prog rout) : confined LMutex (fun _ => True) p ->
  tail LMutex (fun _ => True) (pseq p (fun r => PRel LMutex (PRet r))).
Proof. induction p; cbn; intuition eauto. Qed.
Lemma secured_guarded k c : guarded LMutex (fun _ => True) (secured (prog_of k c)) (run_tcall k c).
Proof.
  apply G_acq.
  - apply tail_one, mx_prog.
  - intros b _. rewrite solo_seq, (prog_does k c); [reflexivity|split; reflexivity].
Qed.

(** Streams of all kinds, all methods, with the calls going through _secure_call (which they do from the second use of
    a method name on, C39): everything is serial. *)
Theorem C76_wrapped_calls_are_serial : forall k b scripts sched q,
  prun (fun c => secured (prog_of k c)) sched (new_pool b scripts) = Some q ->
  (exists b', replays (run_tcall k) (q_log q) b b' /\ (Forall idle (q_thr q) -> b' = q_st q))
  /\ forall t s, nth_error scripts t = Some s ->
       exists x, nth_error (q_thr q) t = Some x /\ exists now, s = calls_of t (q_log q) ++ now ++ t_todo x
         /\ (idle x -> now = []) /\ (length now <= 1)%nat.
Proof.
  intros k b scripts sched q E.
  assert (Hs : Forall (Forall (fun _ : tcall => True)) scripts) by (apply Forall_forall; intros s _; apply Forall_forall; auto).
  destruct (serial (fun c => secured (prog_of k c)) (run_tcall k) LMutex (fun _ => True) (fun _ => True)
    (fun c _ => secured_guarded k c) scripts b sched q Logic.I Hs E) as [H1 H2]. split; [exact H1|].
  intros t s Ht. destruct (nth_error (q_thr q) t) as [x|] eqn:Hx.
  - exists x. split; [reflexivity|]. destruct (H2 t x Hx) as (s' & S1 & S2). rewrite Ht in S1. injection S1 as <-.
    exists (now_list x). split; [exact S2|]. unfold idle, now_list. destruct (t_now x) as [[o p]|]; cbn; split; auto; discriminate.
  - exfalso. apply nth_error_None in Hx. assert (t < length scripts)%nat by (apply nth_error_Some; congruence).
    pose proof (prun_threads _ sched (new_pool b scripts) q E) as N. cbn [new_pool q_thr] in N. rewrite map_length in N. lia.
Qed.
Theorem C76_no_deadlock : forall k b scripts sched q,
  prun (fun c => secured (prog_of k c)) sched (new_pool b scripts) = Some q ->
  Forall finished (q_thr q) \/ exists t q', pstep (fun c => secured (prog_of k c)) t q = Some q'.
Proof.
  intros k b scripts sched q E.
  assert (Hs : Forall (Forall (fun _ : tcall => True)) scripts) by (apply Forall_forall; intros s _; apply Forall_forall; auto).
  exact (goes_on (fun c => secured (prog_of k c)) (run_tcall k) LMutex (fun _ => True) (fun _ => True)
    (fun c _ => secured_guarded k c) scripts b sched q Logic.I Hs E).
Qed.
(** A method called by a single thread never waits for a lock that it holds itself, and gives the locks back. *)
Theorem C76_no_self_deadlock : forall k c b,
  solo (secured (prog_of k c)) all_free b = Some (fst (run_tcall k c b), all_free, snd (run_tcall k c b))
  /\ solo (prog_of k c) all_free b = Some (fst (run_tcall k c b), all_free, snd (run_tcall k c b)).
Proof.
  intros k c b. split.
  - unfold secured, with_lk. cbn [solo taken_by_someone all_free l_mutex]. rewrite solo_seq, (prog_does k c); [reflexivity|split; reflexivity].
  - apply prog_does. split; reflexivity.
Qed.

(** * C77: streams opened with thread_safe=False, all methods *)

(** The calls made are explained by a serial execution, in some order: same results, same files. *)
Definition explained (k : bkind) (b : bstate) (q : pool tcall rout) : Prop :=
  exists l b', Permutation l (q_log q) /\ replays (run_tcall k) l b b'
    /\ forall u, content (b_w b') u = content (b_w (q_st q)) u.
(** Threads that start on a stream used before ([ops0]) and make calls among [calls]. *)
Definition unwrapped_serial (k : bkind) (calls : tcall -> Prop) : Prop :=
  forall f size w o i ops0 scripts sched q, setting k f size w o i ->
  Forall (Forall calls) scripts ->
  prun (prog_of k) sched (new_pool (snd (run_bops k ops0 (fresh f size w))) scripts) = Some q ->
  Forall finished (q_thr q) ->
  explained k (snd (run_bops k ops0 (fresh f size w))) q.

Theorem C77_unwrapped_serial_partial : forall k, k <> BRandom -> unwrapped_serial k locked_call.
Proof.
  intros k K f size w o i ops0 scripts sched q S Hs E Fin.
  destruct (proj1 (C75_one_way_streams_are_serial k _ scripts sched q K Hs E)) as (b' & R & Id).
  exists (q_log q), b'. split; [apply Permutation_refl|]. split; [exact R|]. intros u. rewrite Id; [reflexivity|].
  eapply Forall_impl; [|exact Fin]. intros x [X _]. exact X.
Qed.

(** What a serial execution gives. *)
Fixpoint seq_outs (k : bkind) (l : list tcall) (b : bstate) : list rout * bstate :=
  match l with
  | [] => ([], b)
  | c :: r => let '(o, b1) := run_tcall k c b in let '(os, b2) := seq_outs k r b1 in (o :: os, b2)
  end.
Lemma replays_seq k l b b' : replays (run_tcall k) l b b' ->
  seq_outs k (map (fun x => snd (fst x)) l) b = (map snd l, b').
Proof.
  induction 1 as [b|t o r l b b1 b2 E H IH]; [reflexivity|]. cbn [map fst snd seq_outs]. rewrite E, IH. reflexivity.
Qed.
Lemma perm3 {A} (a b c : A) l : Permutation l [a; b; c] ->
  l = [a;b;c] \/ l = [a;c;b] \/ l = [b;a;c] \/ l = [b;c;a] \/ l = [c;a;b] \/ l = [c;b;a].
Proof.
  intros P. assert (Ha : In a l) by (apply (Permutation_in _ (Permutation_sym P)); now left).
  destruct (in_split _ _ Ha) as (l1 & l2 & ->). apply Permutation_sym in P. apply Permutation_cons_app_inv in P.
  apply Permutation_length_2_inv in P. destruct P as [P|P]; destruct l1 as [|x [|y l1]]; cbn [app] in P |- *.
  1, 4: subst l2; auto 10.
  1, 3: injection P as -> ->; auto 10.
  all: injection P as -> -> P; apply app_eq_nil in P; destruct P as [-> ->]; cbn [app]; auto 10.
Qed.

(** Schedules of the counterexamples and what they lead to. *)
Definition pool_of (k : bkind) (sched : list nat) (b : bstate) (scripts : list (list tcall)) : pool tcall rout :=
  match prun (prog_of k) sched (new_pool b scripts) with Some q => q | None => new_pool b [] end.
Lemma pool_of_run k sched b scripts : (match prun (prog_of k) sched (new_pool b scripts) with Some _ => true | None => false end) = true ->
  prun (prog_of k) sched (new_pool b scripts) = Some (pool_of k sched b scripts).
Proof. unfold pool_of. destruct (prun (prog_of k) sched (new_pool b scripts)); congruence. Qed.
Definition all_done (q : pool tcall rout) : bool :=
  forallb (fun x => match t_now x, t_todo x with None, [] => true | _, _ => false end) (q_thr q).
Lemma all_done_ok q : all_done q = true -> Forall finished (q_thr q).
Proof.
  unfold all_done. rewrite forallb_forall. intros H. apply Forall_forall. intros x Hx. specialize (H x Hx).
  destruct x as [[x|] [|y l]]; cbn in *; try discriminate. split; reflexivity.
Qed.
(** A stream on the file "f", and that it is one. *)
Definition demo_f (k : bkind) (data : list Z) : rawio * world :=
  demo_open "f" (match k with BWriter => false | _ => true end) (match k with BReader => false | _ => true end) false (demo data [] [] []).
Lemma demo_setting_of k data size : 0 < size ->
  exists o i, setting k (fst (demo_f k data)) size (snd (demo_f k data)) o i.
Proof.
  intros Hs. destruct k; cbn -[Z.of_nat]; eexists _, _; constructor;
    try (constructor; try reflexivity; cbn; lia); try reflexivity; auto; try (intros e []); split; auto; cbn; congruence.
Qed.

(** tell() takes no lock: it adds the number of bytes waiting to be written to the position of the raw stream, and a
    flush() in between makes it forget them.  A thread that only calls tell() beside a flush() gets 0 on a stream
    that stands at 3 before and after. *)
Theorem C77_tell_refuted : ~ unwrapped_serial BWriter (fun c => locked_call c \/ c = TOp BoTell).
Proof.
  intros H. destruct (demo_setting_of BWriter [] 8 ltac:(lia)) as (o & i & S).
  set (b := snd (run_bops BWriter [BoWrite [1;2;3]] (fresh (fst (demo_f BWriter [])) 8 (snd (demo_f BWriter []))))).
  set (sc := [[TOp BoFlush]; [TOp BoTell]]). set (sd := ([1;1] ++ repeat 0 9 ++ [1])%nat).
  destruct (H _ _ _ o i [BoWrite [1;2;3]] sc sd (pool_of BWriter sd b sc) S) as (l & b' & P & R & _).
  - repeat (apply Forall_cons || apply Forall_nil); cbn; auto.
  - apply pool_of_run. vm_compute. reflexivity.
  - apply all_done_ok. vm_compute. reflexivity.
  - assert (q_log (pool_of BWriter sd b sc) = [(0%nat, TOp BoFlush, OUnit); (1%nat, TOp BoTell, OInt 0)]) as E by (vm_compute; reflexivity).
    rewrite E in P. apply Permutation_sym, Permutation_length_2_inv in P. apply replays_seq in R. fold b in R.
    destruct P as [-> | ->]; cbn [map fst snd] in R.
    + assert (fst (seq_outs BWriter [TOp BoFlush; TOp BoTell] b) = [OUnit; OInt 3]) as X by (vm_compute; reflexivity).
      rewrite R in X. discriminate.
    + assert (fst (seq_outs BWriter [TOp BoTell; TOp BoFlush] b) = [OInt 3; OUnit]) as X by (vm_compute; reflexivity).
      rewrite R in X. discriminate.
Qed.

(** readline() looks ahead under the lock, then reads under the lock: two threads reading lines of "abc\nd\ne\n", one of
    them gets "d\ne\n" as a line. *)
Theorem C77_readline_refuted : ~ unwrapped_serial BReader (fun c => locked_call c \/ exists n, c = TReadline n).
Proof.
  intros H. set (data := [97;98;99;10;100;10;101;10]).
  destruct (demo_setting_of BReader data 16 ltac:(lia)) as (o & i & S).
  set (b := snd (run_bops BReader [] (fresh (fst (demo_f BReader data)) 16 (snd (demo_f BReader data))))).
  set (sc := [[TReadline (-1)]; [TReadline (-1)]]). set (sd := (repeat 0 11 ++ repeat 1 13 ++ repeat 0 4)%nat).
  destruct (H _ _ _ o i [] sc sd (pool_of BReader sd b sc) S) as (l & b' & P & R & _).
  - repeat (apply Forall_cons || apply Forall_nil); cbn; eauto.
  - apply pool_of_run. vm_compute. reflexivity.
  - apply all_done_ok. vm_compute. reflexivity.
  - assert (q_log (pool_of BReader sd b sc)
      = [(1%nat, TReadline (-1), OBytes [97;98;99;10]); (0%nat, TReadline (-1), OBytes [100;10;101;10])]) as E by (vm_compute; reflexivity).
    rewrite E in P. apply Permutation_sym, Permutation_length_2_inv in P. apply replays_seq in R. fold b in R.
    assert (fst (seq_outs BReader [TReadline (-1); TReadline (-1)] b) = [OBytes [97;98;99;10]; OBytes [100;10]]) as X by (vm_compute; reflexivity).
    destruct P as [-> | ->]; cbn [map fst snd] in R; rewrite R in X; discriminate.
Qed.

(** close() flushes, then closes the raw stream: a write() in between is accepted, and the byte is lost; no call
    reports anything. *)
Theorem C77_close_refuted : ~ unwrapped_serial BWriter (fun c => locked_call c \/ c = TClose).
Proof.
  intros H. destruct (demo_setting_of BWriter [] 8 ltac:(lia)) as (o & i & S).
  set (b := snd (run_bops BWriter [] (fresh (fst (demo_f BWriter [])) 8 (snd (demo_f BWriter []))))).
  set (sc := [[TClose]; [TOp (BoWrite [1])]]). set (sd := (repeat 0 9 ++ repeat 1 7 ++ repeat 0 3)%nat).
  destruct (H _ _ _ o i [] sc sd (pool_of BWriter sd b sc) S) as (l & b' & P & R & C).
  - repeat (apply Forall_cons || apply Forall_nil); cbn; auto.
  - apply pool_of_run. vm_compute. reflexivity.
  - apply all_done_ok. vm_compute. reflexivity.
  - assert (q_log (pool_of BWriter sd b sc) = [(1%nat, TOp (BoWrite [1]), OInt 1); (0%nat, TClose, OUnit)]) as E by (vm_compute; reflexivity).
    rewrite E in P. apply Permutation_sym, Permutation_length_2_inv in P. apply replays_seq in R. fold b in R.
    specialize (C (1, 10)). assert (content (b_w (q_st (pool_of BWriter sd b sc))) (1, 10) = []) as X by (vm_compute; reflexivity).
    rewrite X in C. destruct P as [-> | ->]; cbn [map fst snd] in R.
    + assert (content (b_w (snd (seq_outs BWriter [TOp (BoWrite [1]); TClose] b))) (1, 10) = [1]) as Y by (vm_compute; reflexivity).
      rewrite R in Y. cbn [snd] in Y. congruence.
    + assert (fst (seq_outs BWriter [TClose; TOp (BoWrite [1])] b) = [OUnit; OErr EValue]) as Y by (vm_compute; reflexivity).
      rewrite R in Y. discriminate.
Qed.

(** A stream that reads and writes: read() flushes, then reads; a write() in between is buffered for position 0 of
    a raw stream which read() then moves to the end: the byte ends up after the last one of the file. *)
Theorem C77_random_refuted : ~ unwrapped_serial BRandom locked_call.
Proof.
  intros H. set (data := [1;2;3;4;5;6]). destruct (demo_setting_of BRandom data 8 ltac:(lia)) as (o & i & S).
  set (b := snd (run_bops BRandom [] (fresh (fst (demo_f BRandom data)) 8 (snd (demo_f BRandom data))))).
  set (sc := [[TOp (BoRead (Some 1))]; [TOp (BoWrite [9]); TOp BoFlush]]).
  set (sd := (repeat 0 6 ++ repeat 1 8 ++ repeat 0 7 ++ repeat 1 9)%nat).
  destruct (H _ _ _ o i [] sc sd (pool_of BRandom sd b sc) S) as (l & b' & P & R & C).
  - repeat (apply Forall_cons || apply Forall_nil); cbn; auto.
  - apply pool_of_run. vm_compute. reflexivity.
  - apply all_done_ok. vm_compute. reflexivity.
  - assert (q_log (pool_of BRandom sd b sc) = [(1%nat, TOp (BoWrite [9]), OInt 1); (0%nat, TOp (BoRead (Some 1)), OBytes [1]); (1%nat, TOp BoFlush, OUnit)])
      as E by (vm_compute; reflexivity).
    rewrite E in P. apply perm3 in P. apply replays_seq in R. fold b in R.
    specialize (C (1, 10)). assert (content (b_w (q_st (pool_of BRandom sd b sc))) (1, 10) = [1;2;3;4;5;6;9]) as X by (vm_compute; reflexivity).
    rewrite X in C.
    assert (N : forall l, In l [[TOp (BoWrite [9]); TOp (BoRead (Some 1)); TOp BoFlush]; [TOp (BoWrite [9]); TOp BoFlush; TOp (BoRead (Some 1))];
        [TOp (BoRead (Some 1)); TOp (BoWrite [9]); TOp BoFlush]; [TOp (BoRead (Some 1)); TOp BoFlush; TOp (BoWrite [9])];
        [TOp BoFlush; TOp (BoWrite [9]); TOp (BoRead (Some 1))]; [TOp BoFlush; TOp (BoRead (Some 1)); TOp (BoWrite [9])]] ->
      (fun c => nth 6 c 0 =? 9) (content (b_w (snd (seq_outs BRandom l b))) (1, 10)) = false).
    { apply Forall_forall. repeat constructor; vm_compute; reflexivity. }
    assert (X2 : (fun c => nth 6 c 0 =? 9) (content (b_w b') (1, 10)) = true) by (rewrite C; reflexivity).
    change b' with (snd (map snd l, b')) in X2. rewrite <- R in X2. rewrite N in X2; [discriminate|].
    cbn [In]. repeat (destruct P as [-> |P]); [..|subst l]; cbn [map fst snd]; auto 10.
Qed.

(** * Examples: threads that take turns, one step each, passing when they have to wait *)
Fixpoint turns (fuel : nat) (start : tcall -> prog rout) (threads t : nat) (q : pool tcall rout) : list nat :=
  match fuel with
  | O => []
  | S n =>
      let next := if Nat.eqb (S t) threads then O else S t in
      match pstep start t q with
      | Some q1 => t :: turns n start threads next q1
      | None => turns n start threads next q
      end
  end.
Definition outcome (start : tcall -> prog rout) (b : bstate) (scripts : list (list tcall)) :=
  match prun start (turns 400 start (length scripts) 0 (new_pool b scripts)) (new_pool b scripts) with
  | Some q => Some (all_done q, q_log q, content (b_w (q_st q)) (1, 10), b_wbuf (q_st q))
  | None => None
  end.

(** Two writers with a buffer of two bytes, their steps interleaved. *)
Example C75_example_writers :
  outcome (prog_of BWriter) (demo_buf BWriter 2 [] [IoShort 1])
    [[TOp (BoWrite [1;2;3]); TOp (BoWrite [4]); TOp BoFlush]; [TOp (BoWrite [7;8;9]); TOp (BoWrite [5;5;5])]]
  = Some (true, [(0%nat, TOp (BoWrite [1;2;3]), OInt 3); (1%nat, TOp (BoWrite [7;8;9]), OInt 3); (0%nat, TOp (BoWrite [4]), OInt 1);
                 (1%nat, TOp (BoWrite [5;5;5]), OInt 3); (0%nat, TOp BoFlush, OUnit)],
          [1;2;3;7;8;9;4;5;5;5], []).
Proof. vm_compute. reflexivity. Qed.
(** Two readers. *)
Example C75_example_readers :
  outcome (prog_of BReader) (demo_buf BReader 4 [1;2;3;4;5;6;7;8;9] [])
    [[TOp (BoRead (Some 2)); TOp (BoRead (Some 3))]; [TOp (BoRead (Some 1)); TOp (BoRead (Some 5))]]
  = Some (true, [(0%nat, TOp (BoRead (Some 2)), OBytes [1;2]); (1%nat, TOp (BoRead (Some 1)), OBytes [3]);
                 (0%nat, TOp (BoRead (Some 3)), OBytes [4;5;6]); (1%nat, TOp (BoRead (Some 5)), OBytes [7;8;9])],
          [1;2;3;4;5;6;7;8;9], []).
Proof. vm_compute. reflexivity. Qed.
(** The calls of C77_random_refuted, C77_tell_refuted and C77_close_refuted in the wrapper. *)
Example C76_example :
  outcome (fun c => secured (prog_of BRandom c)) (demo_buf BRandom 8 [1;2;3;4;5;6] [])
    [[TOp (BoRead (Some 1)); TReadline 2; TClose]; [TOp (BoWrite [9]); TOp BoTell; TOp BoSize]; [TOp (BoPeek 3)]]
  = Some (true, [(0%nat, TOp (BoRead (Some 1)), OBytes [1]); (1%nat, TOp (BoWrite [9]), OInt 1);
                 (2%nat, TOp (BoPeek 3), OBytes [3;4;5;6]); (0%nat, TReadline 2, OBytes [3;4]); (1%nat, TOp BoTell, OInt 4);
                 (0%nat, TClose, OUnit); (1%nat, TOp BoSize, OErr EValue)],
          [1;9;3;4;5;6], []).
Proof. vm_compute. reflexivity. Qed.
(** The hypotheses about the file are met. *)
Example C75_setting_inhabited : forall k data, exists o i, setting k (fst (demo_f k data)) 8 (snd (demo_f k data)) o i.
Proof. intros k data. apply demo_setting_of. lia. Qed.

Print Assumptions C75_one_way_streams_are_serial.
Print Assumptions C75_no_deadlock.
Print Assumptions C75_threads_see_a_byte_array.
Print Assumptions C75_each_byte_to_one_reader.
Print Assumptions C75_records_are_not_mixed.
Print Assumptions C76_wrapped_calls_are_serial.
Print Assumptions C76_no_deadlock.
Print Assumptions C76_no_self_deadlock.
Print Assumptions C77_unwrapped_serial_partial.
Print Assumptions C77_tell_refuted.
Print Assumptions C77_readline_refuted.
Print Assumptions C77_close_refuted.
Print Assumptions C77_random_refuted.
