(** C63: buffered streams that are closed. *)
From Coq Require Import ZArith Ascii String List Bool Lia.
From Verif Require Import M_Base M_Modes M_Registry M_Kernel M_World M_Raw M_Open M_Buffered M_BufLines S_Demo S_Closed P_Raw.
Import ListNotations.
Open Scope string_scope.
Open Scope Z_scope.

Lemma set_world_id b : set_world b (b_w b) = b.
Proof. now destruct b. Qed.
Section Closed.
Variable b : bstate.
Hypothesis Hc : f_closed (b_raw b) = true.

Definition refuses {A} (m : B A) : Prop := m b = (Err EValue, b).
Lemma refuses_bind {A X} (m : B A) (g : A -> B X) : refuses m -> refuses (bind m g).
Proof. unfold refuses, bind. now intros ->. Qed.
Lemma refuses_check : refuses b_check_closed.
Proof. unfold refuses, b_check_closed. now rewrite Hc. Qed.
Lemma refuses_raw {A} (m : rawio -> M A) : m (b_raw b) (b_w b) = (Err EValue, b_w b) -> refuses (on_raw m).
Proof. unfold refuses, on_raw. intros ->. now rewrite set_world_id. Qed.
Lemma refuses_flush : refuses flush_unlocked.
Proof. apply refuses_bind, refuses_check. Qed.
Lemma refuses_bflush k : refuses (b_flush k).
Proof. destruct k; [apply refuses_bind, refuses_check|apply refuses_flush|apply refuses_flush]. Qed.
Lemma refuses_tell k : refuses (b_tell k).
Proof.
  assert (T : refuses mixin_tell).
  { apply refuses_bind, refuses_raw. unfold raw_tell, check_closed, bind. now rewrite Hc. }
  destruct k; [apply refuses_bind, T|apply refuses_bind, T|]. unfold refuses, b_tell.
  destruct (b_wbuf b); apply refuses_bind, T.
Qed.
Lemma refuses_seek k o wh : refuses (b_seek k o wh).
Proof.
  unfold b_seek. destruct (negb (valid_whence wh)); [reflexivity|].
  destruct k; [apply refuses_bind, refuses_check|apply refuses_bind, refuses_flush|apply refuses_bind, refuses_flush].
Qed.
Lemma refuses_peek k n : k <> BWriter -> refuses (b_peek k n).
Proof.
  destruct k; intros Hk; [apply refuses_bind, refuses_check|congruence|apply refuses_bind, refuses_flush].
Qed.
Lemma fuel_same : read_fuel b = (Ok (S (match w_fds (b_w b) (fd_of (b_raw b)) with
                | None => O
                | Some o => match w_inodes (b_w b) (o_uid o) with None => O | Some i => length (n_data i) end end)), b).
Proof. unfold read_fuel, on_raw, readall_fuel, bind, ret. now rewrite set_world_id. Qed.
Lemma refuses_readline k n : k <> BWriter -> n <> 0 -> refuses (b_readline k n).
Proof.
  intros Hk Hn. unfold refuses, b_readline.
  assert (forall fu, (fun b0 => readline_loop (fu + length (unread b0) + length (b_wbuf b0) + 1)%nat k n [] b0) b = (Err EValue, b)) as H.
  { intros fu. cbv beta. replace (fu + length (unread b) + length (b_wbuf b) + 1)%nat with (S (fu + length (unread b) + length (b_wbuf b))) by lia.
    cbn [readline_loop length Z.of_nat]. replace ((n <? 0) || (0 <? n)) with true
      by (destruct (Z.ltb_spec n 0), (Z.ltb_spec 0 n); auto; lia).
    apply (refuses_bind (b_peek k 1)). now apply refuses_peek. }
  destruct k; [|congruence|]; unfold bind; rewrite fuel_same; apply H.
Qed.
End Closed.

(** Every method of a closed stream but close(), read() of the reader and readline(0) raises
    ValueError, or says that the class has no such method; the stream and the world
    stay exactly as they are. *)
Theorem C63_closed_refuses_partial k m b : f_closed (b_raw b) = true ->
  m <> MClose -> (forall n, k = BReader -> m <> MRead n) -> m <> MReadline 0 ->
  (exists e, call k m b = (Err e, b) /\ (e = EValue \/ lacks k m)).
Proof.
  intros Hc H1 H2 H3.
  assert (Out : forall A (g : A -> bvalue) (x : B A), refuses b x -> exists e, as_ g x b = (Err e, b) /\ (e = EValue \/ lacks k m)).
  { intros A g x R. exists EValue. split; [|auto]. apply (refuses_bind b x _ R). }
  pose proof (refuses_check b Hc) as Rc. pose proof (refuses_flush b Hc) as Rf.
  destruct m; cbn [call].
  - destruct k; [now destruct (H2 n eq_refl)|exists EUnsupported; split; [reflexivity|right; exact Logic.I]|].
    apply Out. apply refuses_bind, Rf.
  - destruct k; [apply Out, refuses_bind, Rc|exists EUnsupported; split; [reflexivity|right; exact Logic.I]|apply Out, refuses_bind, Rf].
  - destruct k; [apply Out, refuses_bind, Rc|exists EKey; split; [reflexivity|right; exact Logic.I]|apply Out, refuses_bind, Rf].
  - destruct k; [apply Out, refuses_bind, Rc|exists EUnsupported; split; [reflexivity|right; exact Logic.I]|apply Out, refuses_bind, Rf].
  - destruct k.
    + apply Out, refuses_readline; auto; congruence.
    + exists EUnsupported. split; [|right; exact Logic.I]. unfold as_, b_readline. destruct (Z.eqb_spec size 0); [congruence|reflexivity].
    + apply Out, refuses_readline; auto; congruence.
  - apply Out, refuses_bind, Rc.
  - destruct k; [exists EUnsupported; split; [reflexivity|right; exact Logic.I]| |].
    + apply Out, refuses_bind, Rc.
    + (* BufferedRandom: undo the read-ahead first *)
      apply Out. unfold refuses, b_write, bind at 1. destruct (b_rbuf b) eqn:Eb; [apply refuses_bind, Rc|].
      assert (refuses b (undo_readahead ;; reset_read_buf)) as U.
      { apply refuses_bind. apply (refuses_bind b (on_raw _)). apply refuses_raw. unfold raw_seek, check_closed, bind. now rewrite Hc. }
      rewrite U. reflexivity.
  - apply Out, refuses_bind, Rc.
  - apply Out. now apply refuses_seek.
  - apply Out. now apply refuses_tell.
  - apply Out. destruct k; [apply refuses_bind, Rc|apply refuses_bind, Rf|].
    unfold b_truncate. destruct size; [|apply refuses_bind; now apply refuses_tell].
    unfold refuses, bind at 1. apply refuses_bind, Rf.
  - apply Out. now apply refuses_bflush.
  - apply Out. apply refuses_bind. now apply refuses_bflush.
  - apply Out. apply refuses_bind. now apply refuses_bflush.
  - apply Out. apply refuses_bind, refuses_bind. now apply refuses_seek.
  - apply Out. apply refuses_bind, refuses_bind. now apply refuses_seek.
  - congruence.
Qed.

(** None of them, without exception, does anything to the world: no file, descriptor, lock or
    system call. *)
Theorem C63_closed_no_effect k m b r b' : f_closed (b_raw b) = true -> call k m b = (r, b') -> b_w b' = b_w b.
Proof.
  intros Hc H.
  assert ((m = MClose \/ (k = BReader /\ exists n, m = MRead n) \/ m = MReadline 0)
          \/ (m <> MClose /\ (forall n, k = BReader -> m <> MRead n) /\ m <> MReadline 0)) as [C|(A1 & A2 & A3)].
  { destruct m; try (right; repeat split; intros; discriminate); auto.
    - destruct k; [left; right; left; eauto|right; repeat split; intros; discriminate|right; repeat split; intros; discriminate].
    - destruct (Z.eq_dec size 0) as [->|]; [auto|]. right. repeat split; try discriminate. congruence. }
  2:{ destruct (C63_closed_refuses_partial k m b Hc A1 A2 A3) as (e & E & _). rewrite E in H. now injection H as <- <-. }
  destruct C as [->|[(-> & n & ->)| ->]]; cbn [call] in H.
  - unfold as_, b_close, bind in H. rewrite Hc in H. now injection H as <- <-.
  - revert H. unfold as_, b_read, reader_read, bind at 1.
    destruct (match n with Some k => k <? -1 | None => false end); [now intros [= <- <-]|].
    unfold read_unlocked. destruct (match n with None => true | Some k => k =? -1 end).
    + unfold bind, reset_read_buf, on_raw. cbn [set_rbuf b_raw b_w]. unfold raw_readall, bind, readall_fuel. cbn [readall_loop].
      unfold bind, raw_read_n, bind, check_closed. rewrite Hc. now intros [= <- <-].
    + set (n0 := match n with Some k => k | None => 0 end). destruct (n0 <=? _) eqn:En; [now intros [= <- <-]|].
      unfold bind at 1. rewrite fuel_same. unfold bind at 1. cbn [fill_loop]. rewrite (proj2 (Z.ltb_lt _ _) (proj1 (Z.leb_gt _ _) En)).
      unfold bind at 1, on_raw. unfold raw_read, bind, check_closed, check_readable, check_closed, raw_readall, bind, readall_fuel.
      destruct (_ <? 0) eqn:X; cbn [readall_loop]; unfold bind, raw_read_n, bind, check_closed; rewrite Hc; now intros [= <- <-].
  - revert H. unfold as_, b_readline, bind at 1. destruct k; [| now intros [= <- <-] |].
    all: unfold bind at 1; rewrite fuel_same.
    all: match goal with |- context [(?a + 1)%nat] => replace (a + 1)%nat with (S a) by lia end; cbn [readline_loop Z.ltb Z.compare length Z.of_nat orb]; now intros [= <- <-].
Qed.

(** What read() of a closed reader gives: ValueError, or bytes of the file read before the closing. *)
Theorem C63_closed_read_partial n b r b' : f_closed (b_raw b) = true -> call BReader (MRead n) b = (r, b') ->
  r = Err EValue \/ exists k, n = Some k /\ 0 <= k <= Z.of_nat (length (unread b))
    /\ r = Ok (VBytes (Some (firstn (Z.to_nat k) (unread b)))).
Proof.
  intros Hc. unfold call, as_, b_read, reader_read, bind at 1.
  destruct (match n with Some k => k <? -1 | None => false end) eqn:Em; [intros [= <- <-]; auto|].
  unfold read_unlocked. destruct (match n with None => true | Some k => k =? -1 end) eqn:Ea.
  + unfold bind, reset_read_buf, on_raw. cbn [set_rbuf b_raw b_w]. unfold raw_readall, bind, readall_fuel. cbn [readall_loop].
    unfold bind, raw_read_n, bind, check_closed. rewrite Hc. intros [= <- <-]; auto.
  + destruct n as [n|]; [|discriminate]. destruct (n <=? _) eqn:En.
    * intros [= <- <-]. right. exists n. apply Z.ltb_ge in Em. apply Z.eqb_neq in Ea. apply Z.leb_le in En. repeat split; auto; lia.
    * unfold bind at 1. rewrite fuel_same. unfold bind at 1. cbn [fill_loop]. rewrite (proj2 (Z.ltb_lt _ _) (proj1 (Z.leb_gt _ _) En)).
      unfold bind at 1, on_raw. unfold raw_read, bind, check_closed, check_readable, check_closed, raw_readall, bind, readall_fuel.
      destruct (_ <? 0) eqn:X; cbn [readall_loop]; unfold bind, raw_read_n, bind, check_closed; rewrite Hc; intros [= <- <-]; auto.
Qed.

(** close() closes, whatever happens. *)
Theorem C63_close_closes k b r b' : b_close k b = (r, b') -> f_closed (b_raw b') = true.
Proof.
  unfold b_close. destruct (f_closed (b_raw b)) eqn:Hc; [intros [= <- <-]; exact Hc|].
  unfold finally. destruct (b_flush k b) as [r1 b1]. unfold raw_close_b. destruct (raw_close _ _) as [r2 w2].
  destruct r2; intros [= <- <-]; reflexivity.
Qed.

(** Every method of a closed stream but close() would raise: false, read() of the reader gives
    the bytes that were read ahead. *)
Definition closed_always_raises : Prop := forall k m b r b',
  f_closed (b_raw b) = true -> m <> MClose -> m <> MReadline 0 -> call k m b = (r, b') -> exists e, r = Err e.
Definition closed_demo : bstate :=
  let '(f, w) := demo_open "f" true false false (demo [1; 2; 3] [] [] []) in
  snd ((call BReader (MRead (Some 1)) ;; call BReader MClose) (fresh f 8 w)).
Theorem C63_closed_read_refuted : ~ closed_always_raises.
Proof.
  intros H. destruct (call BReader (MRead (Some 2)) closed_demo) as [r b'] eqn:E.
  destruct (H BReader (MRead (Some 2)) closed_demo r b' ltac:(vm_compute; reflexivity) ltac:(discriminate) ltac:(discriminate) E) as [e ->].
  vm_compute in E. discriminate.
Qed.

Example C63_example :
  f_closed (b_raw closed_demo) = true
  /\ fst (call BReader (MRead (Some 2)) closed_demo) = Ok (VBytes (Some [2; 3]))
  /\ fst (call BReader (MRead (Some 3)) closed_demo) = Err EValue
  /\ fst (call BReader (MRead None) closed_demo) = Err EValue
  /\ fst (call BReader (MPeek 1) closed_demo) = Err EValue /\ fst (call BReader MTell closed_demo) = Err EValue
  /\ fst (call BReader (MReadline 0) closed_demo) = Ok (VBytes (Some []))
  /\ fst (call BReader MClose closed_demo) = Ok VUnit
  /\ fst (call BReader (MWrite [1]) closed_demo) = Err EUnsupported.
Proof. vm_compute. auto 10. Qed.

Print Assumptions C63_closed_refuses_partial.
Print Assumptions C63_closed_no_effect.
Print Assumptions C63_closed_read_partial.
Print Assumptions C63_close_closes.
Print Assumptions C63_closed_read_refuted.
