(** Final theorems about the thread-safe wrapper: C39. *)
From Coq Require Import Ascii String List Bool Arith Lia.
From Verif Require Import M_Base M_Wrapper.
Import ListNotations.

(** Two different threads are inside methods of the wrapped stream. *)
Definition overlap (s : wstate) : Prop :=
  exists t u n m b c, t <> u /\ s_pos s t = TInside n b /\ s_pos s u = TInside m c.

(** The mutex is held exactly by a thread inside a protected call. *)
Definition winv (s : wstate) : Prop :=
  forall t, s_owner s = Some t <-> exists n, s_pos s t = TInside n true.

Lemma winv_init : winv w_init.
Proof. intros t. cbn. split; [discriminate|intros (n & H); discriminate H]. Qed.
Lemma winv_pos s t p : winv s -> (forall n, p <> TInside n true) -> (forall n, s_pos s t <> TInside n true) ->
  winv (set_tpos s t p).
Proof.
  intros I A B u. cbn. destruct (Nat.eqb_spec u t) as [->|]; [|apply I]. split.
  - intros H. apply I in H. destruct H as (n & H). now apply B in H.
  - intros (n & H). now apply A in H.
Qed.
Lemma wstep_inv ms t a s s' : winv s -> wstep ms t a s = Some s' -> winv s'.
Proof.
  intros I H. unfold wstep in H. destruct (s_pos s t) as [|n|n|n b] eqn:E; destruct a as [n'| | |c| |r]; try discriminate H.
  - destruct (mem n' (s_cached s)); injection H as <-; [exact I|]. apply winv_pos; auto; rewrite ?E; discriminate.
  - injection H as <-. exact I.
  - destruct (existsb _ _); [|discriminate]. destruct c; injection H as <-; apply winv_pos; auto; rewrite ?E; discriminate.
  - injection H as <-. apply winv_pos; [| discriminate|].
    + destruct (negb (private n) && ms n), (ms n); exact I.
    + intros m. replace (s_pos _ t) with (s_pos s t) by (destruct (negb (private n) && ms n), (ms n); reflexivity). rewrite E. discriminate.
  - destruct (s_owner s) eqn:O; [discriminate|]. injection H as <-. intros u. cbn. destruct (Nat.eqb_spec u t) as [->|N].
    + split; [eauto|auto].
    + split; [congruence|]. intros X. apply I in X. congruence.
  - injection H as <-. destruct b.
    + intros u. cbn. split; [discriminate|]. intros (m & X). destruct (Nat.eqb_spec u t); [discriminate|].
      assert (A : s_owner s = Some u) by (apply I; eauto). assert (B : s_owner s = Some t) by (apply I; eauto). congruence.
    + apply winv_pos; [exact I|discriminate|]. rewrite E. intros m X. discriminate X.
Qed.
Lemma wrun_inv ms l : forall s s', winv s -> wrun ms l s = Some s' -> winv s'.
Proof.
  induction l as [|(t, a) l IH]; intros s s' I H; cbn in H; [injection H as <-; exact I|].
  destruct (wstep ms t a s) eqn:E; [|discriminate]. eapply IH; [eapply wstep_inv; eauto|exact H].
Qed.

(** Calls made through the proxies never overlap with one another. *)
Theorem C39_protected_calls_exclusive : forall methods l s t u n m,
  wrun methods l w_init = Some s -> s_pos s t = TInside n true -> s_pos s u = TInside m true -> t = u.
Proof.
  intros ms l s t u n m H A B. pose proof (wrun_inv ms l _ _ winv_init H) as I.
  assert (s_owner s = Some t) by (apply I; eauto). assert (s_owner s = Some u) by (apply I; eauto). congruence.
Qed.

(** The calls of a careful program: public methods among [names], called through the result of a new look-up (not
    one kept from before), and no iteration. *)
Definition careful (names : list string) (x : nat * wact) : Prop :=
  match snd x with
  | ALookup n => In n names
  | ACall (Direct _) => False
  | AIter => False
  | _ => True
  end.
Definition only_proxies (s : wstate) : Prop :=
  (forall t n, s_pos s t <> TGetattr n) /\ (forall t n, s_pos s t <> TInside n false).
Lemma mem_in n l : mem n l = true <-> In n l.
Proof.
  unfold mem. rewrite existsb_exists. split.
  - intros (x & H & E). apply String.eqb_eq in E. now subst.
  - intros H. exists n. now rewrite String.eqb_refl.
Qed.
Lemma wstep_proxies ms names t a s s' : (forall n, In n names -> In n (s_cached s)) -> careful names (t, a) ->
  only_proxies s -> wstep ms t a s = Some s' -> only_proxies s' /\ (forall n, In n names -> In n (s_cached s')).
Proof.
  intros K L (P2 & P3) H. unfold wstep in H.
  destruct (s_pos s t) as [|n|n|n b] eqn:E; destruct a as [n'| | |c| |r]; try discriminate H; unfold careful in L; cbn in L.
  - destruct (mem n' (s_cached s)) eqn:M; injection H as <-.
    + split; [|exact K]. split; auto.
    + apply K, mem_in in L. congruence.
  - destruct L.
  - destruct (existsb (callee_eqb c) (s_got s)); [|discriminate]. destruct c as [m|m]; [destruct L|]. injection H as <-.
    split; [|exact K]. split; intros u m'; cbn; destruct (u =? t); auto; discriminate.
  - now apply P2 in E.
  - destruct (s_owner s); [discriminate|]. injection H as <-. split; [|exact K].
    split; intros u m'; cbn; destruct (u =? t); auto; discriminate.
  - injection H as <-. destruct b; [|now apply P3 in E]. split; [|exact K].
    split; intros u m'; cbn; destruct (u =? t); auto; discriminate.
Qed.

(** If each of the methods used was looked up once before ([l0]: any use of the wrapper, at the end of which no thread is
    in a call), no two calls of careful programs ever overlap: for every number of threads, every sequence of calls and
    every schedule. *)
Theorem C39_serialised_partial : forall methods names l0 l s0 s,
  wrun methods l0 w_init = Some s0 -> (forall t, s_pos s0 t = TIdle) -> (forall n, In n names -> In n (s_cached s0)) ->
  Forall (careful names) l -> wrun methods l s0 = Some s -> ~ overlap s.
Proof.
  intros ms names l0 l s0 s H0 Q K F H. pose proof (wrun_inv ms l0 _ _ winv_init H0) as I.
  assert (P : only_proxies s0) by (split; intros t n; rewrite Q; discriminate).
  assert (G : winv s /\ only_proxies s).
  { clear H0 Q. revert s0 I P K H. induction l as [|(t, a) l IH]; intros s0 I P K H; cbn in H; [injection H as <-; auto|].
    destruct (wstep ms t a s0) eqn:E; [|discriminate]. inversion F; subst.
    destruct (wstep_proxies ms names t a s0 w K H2 P E) as (P' & K'). apply (IH H3 w); auto. eapply wstep_inv; eauto. }
  destruct G as (I' & P2 & P3). intros (t & u & n & m & b & c & N & A & B).
  destruct b; [|now apply P3 in A]. destruct c; [|now apply P3 in B].
  assert (s_owner s = Some t) by (apply I'; eauto). assert (s_owner s = Some u) by (apply I'; eauto). congruence.
Qed.

(** The mutex is never kept: when nobody is inside a protected call it is free (also after exceptions), and as long
    as it is held its holder can leave. *)
Theorem C39_mutex_released : forall methods l s, wrun methods l w_init = Some s ->
  ((forall t n, s_pos s t <> TInside n true) -> s_owner s = None)
  /\ (forall t, s_owner s = Some t -> forall raised, exists s', wstep methods t (AReturn raised) s = Some s' /\ s_owner s' = None)
  /\ (forall t n, s_pos s t = TWaitMutex n -> s_owner s = None -> exists s', wstep methods t AAcquire s = Some s').
Proof.
  intros ms l s H. pose proof (wrun_inv ms l _ _ winv_init H) as I. split; [|split].
  - intros A. destruct (s_owner s) as [t|] eqn:E; [|reflexivity]. apply I in E. destruct E as (n & E). now apply A in E.
  - intros t E r. apply I in E. destruct E as (n & E). unfold wstep. rewrite E. eauto.
  - intros t n E O. unfold wstep. rewrite E, O. eauto.
Qed.

(** Without that preparation the wrapper does not serialise: the first look-up of each method gives the method
    itself. *)
Definition stream_methods (n : string) : bool :=
  existsb (String.eqb n) ["read"; "write"; "seek"; "close"; "flush"; "_checkClosed"; "__next__"]%string.
Theorem C39_first_calls_refuted : exists l s, wrun stream_methods l w_init = Some s /\ overlap s.
Proof.
  exists [(1, ALookup "read"%string); (1, AGetattr); (1, ACall (Direct "read")); (2, ALookup "write"%string); (2, AGetattr); (2, ACall (Direct "write"))].
  eexists. split; [vm_compute; reflexivity|].
  exists 1, 2, "read"%string, "write"%string, false, false.
  split; [discriminate|]. split; reflexivity.
Qed.
(** Even a protected call is overlapped by the first call of another method: here the close() made at the end of a
    with-block, while another thread is in the middle of read() (its second one). *)
Theorem C39_close_during_read_refuted : exists l s, wrun stream_methods l w_init = Some s
  /\ s_pos s 1 = TInside "read" true /\ s_pos s 2 = TInside "close" false.
Proof.
  exists [(1, ALookup "read"%string); (1, AGetattr); (1, ACall (Direct "read")); (1, AReturn false);
          (1, ALookup "read"%string); (1, ACall (Proxy "read")); (1, AAcquire);
          (2, ALookup "close"%string); (2, AGetattr); (2, ACall (Direct "close"))].
  eexists. split; [vm_compute; reflexivity|]. vm_compute. auto.
Qed.
(** Iterating over the wrapper is never protected, whatever was looked up before. *)
Theorem C39_iteration_refuted : forall s n m, s_pos s 1 = TInside n true -> s_pos s 2 = TIdle ->
  exists s', wrun m [(2, AIter); (2, ACall (Direct "__next__"))] s = Some s' /\ overlap s'.
Proof.
  intros s n m A B. cbn [wrun]. unfold wstep at 1. rewrite B. unfold wstep. cbn [got s_pos]. rewrite B. cbn [s_got got existsb callee_eqb].
  rewrite String.eqb_refl. cbn [orb]. eexists. split; [reflexivity|].
  exists 1, 2, n, "__next__"%string, true, false. cbn. split; [discriminate|]. split; [exact A|reflexivity].
Qed.

(** A wrapper on which read and write were looked up once meets the hypotheses of C39_serialised_partial, and protected
    calls do happen. *)
Definition warm_up : list (nat * wact) := [(0, ALookup "read"%string); (0, AGetattr); (0, ALookup "write"%string); (0, AGetattr)].
Example C39_example : exists s0, wrun stream_methods warm_up w_init = Some s0 /\ (forall t, s_pos s0 t = TIdle)
  /\ s_cached s0 = ["write"; "read"]%string.
Proof.
  eexists. split; [vm_compute; reflexivity|]. split; [|reflexivity]. intros [|t]; reflexivity.
Qed.
Example C39_example_run :
  match wrun stream_methods (warm_up ++ [(1, ALookup "read"%string); (2, ALookup "write"%string); (1, ACall (Proxy "read"));
     (2, ACall (Proxy "write")); (2, AAcquire)]) w_init with
  | Some s => (s_pos s 1, s_pos s 2, match wstep stream_methods 1 AAcquire s with None => true | _ => false end)
  | None => (TIdle, TIdle, false)
  end = (TWaitMutex "read", TInside "write" true, true).
Proof. vm_compute. reflexivity. Qed.

Print Assumptions C39_protected_calls_exclusive.
Print Assumptions C39_serialised_partial.
Print Assumptions C39_mutex_released.
Print Assumptions C39_first_calls_refuted.
Print Assumptions C39_close_during_read_refuted.
Print Assumptions C39_iteration_refuted.
