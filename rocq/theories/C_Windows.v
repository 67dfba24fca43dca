(** Final theorems about raw streams on windows: C42 and C45. *)
From Coq Require Import ZArith List Bool Lia.
From Verif Require Import M_Base M_Registry M_World M_Raw M_Windows S_Bytes S_Raw P_Bytes.
Import ListNotations.
Open Scope Z_scope.

(** No call of the system fails. *)
Definition x_no_err (x : wfile) : Prop := forall e, ~ In (IoErr e) (x_io x).
(** The system finds zeros in the space it adds to files. *)
Definition zeroing (x : wfile) : Prop := forall n, x_junk x n = 0.

(** The calls of a program, and what it sees. *)
Definition run_vop (v : wio) (op : rop) (x : wfile) : rout * wfile :=
  match op with
  | RRead n => match v_read v n x with (Ok (Some d), x') => (OBytes d, x') | (Ok None, x') => (ONone, x') | (Err e, x') => (OErr e, x') end
  | RReadInto n => match v_readinto v n x with (Ok d, x') => (OBytes d, x') | (Err e, x') => (OErr e, x') end
  | RWrite b => match v_write v b x with (Ok (Some d), x') => (OInt d, x') | (Ok None, x') => (ONone, x') | (Err e, x') => (OErr e, x') end
  | RSeek off wh => match v_seek v off wh x with (Ok d, x') => (OInt d, x') | (Err e, x') => (OErr e, x') end
  | RTell => match v_tell v x with (Ok d, x') => (OInt d, x') | (Err e, x') => (OErr e, x') end
  | RSize => match v_size v x with (Ok d, x') => (OInt d, x') | (Err e, x') => (OErr e, x') end
  | RFlush => match v_flush v x with (Ok _, x') => (OUnit, x') | (Err e, x') => (OErr e, x') end
  | RTruncate s => match v_truncate v s true x with (Ok d, x') => (OInt d, x') | (Err e, x') => (OErr e, x') end
  end.
Fixpoint run_vops (v : wio) (ops : list rop) (x : wfile) : list rout * wfile :=
  match ops with
  | [] => ([], x)
  | op :: r => let '(o, x1) := run_vop v op x in let '(os, x2) := run_vops v r x1 in (o :: os, x2)
  end.

(** * Lemmas *)

Lemma x_next_ok x : x_no_err x -> exists e x1, x_next x = (Ok e, x1) /\ (forall n, e <> IoErr n)
  /\ x_data x1 = x_data x /\ x_pos x1 = x_pos x /\ x_junk x1 = x_junk x /\ x_no_err x1 /\ (x_io x = [] -> x_io x1 = [] /\ e = IoFull).
Proof.
  intros N. unfold x_next. destruct (x_io x) as [|e r] eqn:E.
  - exists IoFull, x. repeat (split; auto). discriminate.
  - exists e, (x_set_io x r). repeat (split; auto).
    + intros n ->. apply (N n). rewrite E. now left.
    + intros n Hn. apply (N n). rewrite E. now right.
    + discriminate.
    + discriminate.
Qed.
Lemma fill_zero junk n l : (forall k, junk k = 0) -> fill_to junk n l = pad_to n l.
Proof.
  intros Z0. unfold fill_to, pad_to. f_equal. generalize (n - length l)%nat as m. generalize (length l) as a. intros a m. revert a.
  induction m as [|m IH]; intros a; cbn; [auto|]. now rewrite Z0, IH.
Qed.
Lemma fill_short junk n l : (n <= length l)%nat -> fill_to junk n l = l.
Proof. intros H. unfold fill_to. replace (n - length l)%nat with O by lia. cbn. apply app_nil_r. Qed.
Lemma fill_pad junk n l : ((forall k, junk k = 0) \/ (n <= length l)%nat) -> fill_to junk n l = pad_to n l.
Proof.
  intros [A|A]; [now apply fill_zero|]. rewrite fill_short by auto. unfold pad_to.
  replace (n - length l)%nat with O by lia. cbn. now rewrite app_nil_r.
Qed.
Lemma io_count_nonerr e n : (io_count e n <= n)%nat /\ (n <> O -> io_count e n <> O).
Proof. unfold io_count. destruct e; split; lia. Qed.

Lemma read_file_ok n x : x_no_err x -> 0 <= n -> 0 <= x_pos x ->
  exists d x1, read_file n x = (Ok d, x1) /\ slice_at (x_data x) (x_pos x) d /\ len d <= n /\ (d = [] -> n = 0 \/ len (x_data x) <= x_pos x)
    /\ x_data x1 = x_data x /\ x_pos x1 = x_pos x + len d /\ x_junk x1 = x_junk x /\ x_no_err x1.
Proof.
  intros N Hn Hp. unfold read_file, bind. destruct (x_next_ok x N) as (e & x1 & -> & Ne & D1 & P1 & J1 & N1 & _).
  set (d := firstn (io_count e (Z.to_nat n)) (skipn (Z.to_nat (x_pos x)) (x_data x))).
  exists d, (x_set_pos x1 (x_pos x1 + len d)).
  split. { destruct e; [| |now destruct (Ne errno)]; cbv beta iota zeta; rewrite D1, P1; reflexivity. }
  split. { unfold d. rewrite <- (Z2Nat.id (x_pos x)) at 1 by auto. apply firstn_skipn_slice. }
  pose proof (io_count_nonerr e (Z.to_nat n)) as (C1 & C2).
  split. { unfold d. rewrite len_firstn. lia. }
  split. { intros E. apply (f_equal len) in E. unfold d in E. change (len []) with 0 in E; rewrite len_firstn, len_skipn in E.
    destruct (Z.eq_dec n 0); [now left|]. right. assert (io_count e (Z.to_nat n) <> O) by (apply C2; lia). lia. }
  repeat (split; auto). cbn. now rewrite P1.
Qed.

(** WriteFile once the position is known. *)
Lemma write_file_ok b x : x_no_err x -> 0 <= x_pos x -> (zeroing x \/ x_pos x <= len (x_data x)) ->
  exists k x1, write_file b x = (Ok (Z.of_nat k), x1) /\ (k <= length b)%nat /\ (b <> [] -> k <> O)
    /\ x_data x1 = write_at (x_data x) (Z.to_nat (x_pos x)) (firstn k b) /\ x_pos x1 = x_pos x + Z.of_nat k
    /\ x_junk x1 = x_junk x /\ x_no_err x1 /\ (x_io x = [] -> x_io x1 = [] /\ k = length b).
Proof.
  intros N Hp G. unfold write_file, bind. destruct (x_next_ok x N) as (e & x1 & -> & Ne & D1 & P1 & J1 & N1 & F1).
  pose proof (io_count_nonerr e (length b)) as (C1 & C2). set (k := io_count e (length b)) in *.
  assert (Lk : length (firstn k b) = k) by (rewrite firstn_length; lia).
  exists k. set (d := write_at (x_data x) (Z.to_nat (x_pos x)) (firstn k b)).
  exists (x_set_pos (x_set_data x1 d) (x_pos x + Z.of_nat k)).
  split.
  { assert (fill_to (x_junk x1) (Z.to_nat (x_pos x)) (x_data x) = pad_to (Z.to_nat (x_pos x)) (x_data x)) as Fp.
    { apply fill_pad. rewrite J1. destruct G as [G|G]; [now left|right]. unfold len in G. lia. }
    destruct e; [| |now destruct (Ne errno)]; cbv beta iota zeta; fold k; rewrite D1, P1, Lk, Fp;
      unfold d, write_at; (destruct (firstn k b) eqn:Ek; [reflexivity|rewrite Lk; reflexivity]). }
  split; [exact C1|]. split; [intros Hb; apply C2; destruct b; [congruence|discriminate]|].
  split; [reflexivity|]. split; [reflexivity|]. split; [exact J1|]. split; [exact N1|].
  intros E. destruct (F1 E) as (E1 & ->). split; [exact E1|reflexivity].
Qed.
Lemma v_inner_write_ok v b x : x_no_err x -> 0 <= x_pos x -> (zeroing x \/ v_append v = true \/ x_pos x <= len (x_data x)) ->
  exists k x1 q, v_inner_write v b x = (Ok (if Z.of_nat k =? 0 then None else Some (Z.of_nat k)), x1)
    /\ (k <= length b)%nat /\ (b <> [] -> k <> O)
    /\ q = (if v_append v then len (x_data x) else x_pos x)
    /\ x_data x1 = write_at (x_data x) (Z.to_nat q) (firstn k b) /\ x_pos x1 = q + Z.of_nat k
    /\ x_junk x1 = x_junk x /\ x_no_err x1 /\ (x_io x = [] -> x_io x1 = [] /\ k = length b).
Proof.
  intros N Hp G. unfold v_inner_write, bind.
  set (q := if v_append v then len (x_data x) else x_pos x).
  set (x0 := if v_append v then x_set_pos x (len (x_data x)) else x).
  assert (Hq : 0 <= q). { unfold q. destruct (v_append v); [apply len_nonneg|exact Hp]. }
  assert (E0 : (if v_append v then (v_inner_seek 0 2 ;; ret tt) else ret tt) x = (Ok tt, x0)).
  { unfold x0. destruct (v_append v); [|reflexivity]. unfold v_inner_seek, bind, set_file_pointer. cbn -[Z.of_nat].
    destruct (Z.ltb_spec (Z.of_nat (length (x_data x)) + 0) 0); [lia|]. unfold len. now rewrite Z.add_0_r. }
  unfold bind in E0. rewrite E0.
  assert (P0 : x_pos x0 = q) by (unfold x0, q; now destruct (v_append v)).
  assert (D0 : x_data x0 = x_data x) by (unfold x0; now destruct (v_append v)).
  assert (T0 : x_set_pos x0 (q + 0) = x0). { rewrite Z.add_0_r, <- P0. now destruct x0. }
  unfold v_inner_tell, set_file_pointer. cbn [Z.eqb Pos.eqb]. rewrite P0.
  destruct (Z.ltb_spec (q + 0) 0); [lia|]. rewrite T0. unfold v_inner_size, get_file_size.
  cbv beta iota.
  match goal with |- context [let (_, _) := ?m in _] => assert (E2 : m = (Ok tt, x0)) end.
  { destruct (_ <? _); [|reflexivity]. unfold v_inner_extend. destruct (Z.ltb_spec (q + 0) 0); [lia|reflexivity]. }
  rewrite E2.
  destruct (write_file_ok b x0) as (k & x1 & -> & K1 & K2 & W1 & W2 & W3 & W4 & W5).
  - unfold x0. destruct (v_append v); exact N.
  - lia.
  - rewrite P0, D0. unfold zeroing. replace (x_junk x0) with (x_junk x) by (unfold x0; now destruct (v_append v)).
    unfold q. destruct (v_append v); [right; lia|]. destruct G as [G|[G|G]]; [now left|discriminate|now right].
  - exists k, x1, q. split; [now destruct (_ =? 0)|]. split; [exact K1|]. split; [exact K2|]. split; [reflexivity|].
    rewrite P0, D0 in *. split; [exact W1|]. split; [exact W2|].
    split; [rewrite W3; unfold x0; now destruct (v_append v)|]. split; [exact W4|].
    intros E. apply W5. unfold x0. now destruct (v_append v).
Qed.

(** * C45: reads, writes and moves refine the byte array *)

(** What is left out: truncate (C42), write(b"") (it returns None instead of 0) and a whence other than 0, 1, 2 (it
    raises KeyError). *)
Definition plain (op : rop) : Prop :=
  match op with
  | RReadInto n => 0 <= n | RWrite b => b <> [] | RSeek _ wh => 0 <= wh <= 2 | RTruncate _ => False | _ => True
  end.

Lemma readall_ok v : v_closed v = false -> v_readable v = true ->
  forall fuel x acc, x_no_err x -> 0 <= x_pos x -> (Z.of_nat fuel > len (x_data x) - x_pos x) -> (fuel <> O) ->
  exists d x1, v_readall_loop fuel v acc x = (Ok (Some (acc ++ d)), x1) /\ rest_from (x_data x) (x_pos x) d
    /\ x_data x1 = x_data x /\ x_pos x1 = x_pos x + len d /\ x_junk x1 = x_junk x /\ x_no_err x1.
Proof.
  intros C R. induction fuel as [|fuel IH]; intros x acc N Hp Hf Hz; [congruence|].
  cbn [v_readall_loop]. unfold v_check_closed, v_check_readable, v_check_closed, bind. rewrite C, R. cbn [ret].
  unfold v_inner_read.
  destruct (read_file_ok DEFAULT_BUFFER_SIZE x N ltac:(unfold DEFAULT_BUFFER_SIZE; lia) Hp) as (d & x1 & -> & S1 & L1 & Z1 & D1 & P1 & J1 & N1).
  destruct d as [|y t].
  - exists [], x1. split. { destruct acc; [reflexivity|]. now rewrite app_nil_r. }
    split. { split; [|exact S1]. rewrite len_nil. destruct (Z1 eq_refl) as [X|X]; [discriminate|lia]. }
    rewrite len_nil in *. repeat (split; auto).
  - set (d := y :: t) in *. assert (0 < len d) by (unfold d; rewrite len_cons; pose proof (len_nonneg t); lia). clearbody d.
    assert (len (x_data x) - x_pos x >= len d). { destruct S1 as ([->|X] & _); [rewrite len_nil in *; lia|lia]. }
    destruct (IH x1 (acc ++ d) N1) as (d2 & x2 & E2 & Rt & D2 & P2 & J2 & N2); [lia|rewrite D1, P1; lia| |].
    { intros ->. lia. }
    exists (d ++ d2), x2. rewrite app_assoc. split; [exact E2|]. rewrite D1, P1 in Rt.
    split. { destruct Rt as (Rl & Rs). split; [rewrite len_app; lia|]. now apply slice_app. }
    rewrite len_app. split; [congruence|]. split; [lia|]. split; [congruence|exact N2].
Qed.

Lemma vop_step v op x out x' : v_closed v = false -> plain op -> x_no_err x -> 0 <= x_pos x -> zeroing x ->
  run_vop v op x = (out, x') ->
  astep False (mkAcc (v_readable v) (v_writable v) (v_append v)) (x_data x, x_pos x) op out (x_data x', x_pos x')
  /\ x_no_err x' /\ 0 <= x_pos x' /\ zeroing x'.
Proof.
  intros C P N Hp Z0 H. destruct op as [n|n|b|off wh| | | |s]; cbn [run_vop plain] in *; [| | | | | | |easy].
  - unfold v_read, v_check_readable, v_check_closed, bind in H. rewrite C in H. cbn [ret] in H.
    destruct (v_readable v) eqn:R; [|injection H as <- <-; split; [|auto]; apply AS_unreadable; cbn; eauto].
    cbn [ret] in H. destruct (Z.ltb_spec n 0).
    + unfold v_readall, bind, get in H.
      destruct (readall_ok v C R (S (length (x_data x))) x [] N Hp ltac:(unfold len; lia) ltac:(discriminate))
        as (d & x1 & E & Rt & D1 & P1 & J1 & N1). rewrite E in H. injection H as <- <-. rewrite D1, P1.
      pose proof (len_nonneg d). split; [|split; [auto|split; [lia|unfold zeroing; now rewrite J1]]].
      now apply AS_readall.
    + unfold v_inner_read in H. destruct (read_file_ok n x N H0 Hp) as (d & x1 & E & S1 & L1 & Z1 & D1 & P1 & J1 & N1).
      rewrite E in H. injection H as <- <-. rewrite D1, P1. pose proof (len_nonneg d).
      split; [|split; [auto|split; [lia|unfold zeroing; now rewrite J1]]]. now apply AS_read.
  - unfold v_readinto, v_check_readable, v_check_closed, bind in H. rewrite C in H. cbn [ret] in H.
    destruct (v_readable v) eqn:R; [|injection H as <- <-; split; [|auto]; apply AS_unreadable; cbn; eauto].
    cbn [ret] in H. unfold v_inner_read in H. destruct (read_file_ok n x N P Hp) as (d & x1 & E & S1 & L1 & Z1 & D1 & P1 & J1 & N1).
    rewrite E in H. injection H as <- <-. rewrite D1, P1. pose proof (len_nonneg d).
    split; [|split; [auto|split; [lia|unfold zeroing; now rewrite J1]]]. now apply AS_readinto.
  - unfold v_write, v_check_writable, v_check_closed, bind in H. rewrite C in H. cbn [ret] in H.
    destruct (v_writable v) eqn:R; [|injection H as <- <-; split; [|auto]; apply AS_unwritable; cbn; eauto].
    cbn [ret] in H. destruct (v_inner_write_ok v b x N Hp (or_introl Z0)) as (k & x1 & q & E & K1 & K2 & Q & D1 & P1 & J1 & N1 & _).
    rewrite E in H. specialize (K2 P). destruct (Z.eqb_spec (Z.of_nat k) 0); [lia|].
    cbv beta iota in H. rewrite (proj2 (Z.eqb_neq (Z.of_nat k) 0)), andb_false_r in H by assumption. destruct (Z.ltb_spec (Z.of_nat k) 0); [lia|].
    destruct (Z.ltb_spec (Z.of_nat (length b)) (Z.of_nat k)); [lia|]. cbn [orb ret] in H. injection H as <- <-.
    assert (0 <= q) by (subst q; destruct (v_append v); [apply len_nonneg|auto]).
    rewrite D1, P1. split; [|split; [auto|split; [lia|unfold zeroing; now rewrite J1]]].
    apply AS_write; cbn; auto; try lia.
    rewrite Nat2Z.id. rewrite <- (Z2Nat.id q) at 1 by auto. apply write_at_stored.
  - unfold v_seek, v_check_closed, bind in H. rewrite C in H. cbn [ret] in H. unfold v_inner_seek, set_file_pointer in H. cbv zeta in H.
    assert ((wh =? 0) || (wh =? 1) || (wh =? 2) = true) as Ew.
    { assert (wh = 0 \/ wh = 1 \/ wh = 2) as [->|[->| ->]] by lia; reflexivity. }
    rewrite Ew in H. cbv beta zeta in H.
    set (base := if wh =? 0 then 0 else if wh =? 1 then x_pos x else Z.of_nat (length (x_data x))) in *.
    assert (B : (wh = 0 /\ base = 0) \/ (wh = 1 /\ base = x_pos x) \/ (wh = 2 /\ base = len (x_data x))).
    { unfold base. destruct (Z.eqb_spec wh 0); [auto|]. destruct (Z.eqb_spec wh 1); [auto|]. right. right. split; [lia|reflexivity]. }
    clearbody base. destruct (Z.ltb_spec (base + off) 0); injection H as <- <-; cbn [x_data x_pos x_set_pos].
    + split; [|auto]. eapply AS_seek_neg; eauto.
    + split; [|auto]. eapply AS_seek; eauto.
  - unfold v_tell, v_check_closed, bind in H. rewrite C in H. cbn [ret] in H. unfold v_inner_tell, set_file_pointer in H.
    cbn [Z.eqb Pos.eqb] in H. rewrite Z.add_0_r in H. destruct (Z.ltb_spec (x_pos x) 0); [lia|]. injection H as <- <-.
    cbn. split; [constructor|auto].
  - unfold v_size, v_check_closed, bind in H. rewrite C in H. injection H as <- <-. split; [apply AS_size|auto].
  - unfold v_flush, v_check_closed in H. rewrite C in H. injection H as <- <-. split; [constructor|auto].
Qed.

(** For every sequence of such calls and every schedule of short reads and writes, on a system that clears the space it
    adds to files. *)
Theorem C45_windows_refines_partial : forall v ops x outs x',
  v_closed v = false -> Forall plain ops -> x_no_err x -> 0 <= x_pos x -> zeroing x ->
  run_vops v ops x = (outs, x') ->
  aruns False (mkAcc (v_readable v) (v_writable v) (v_append v)) (x_data x, x_pos x) ops outs (x_data x', x_pos x').
Proof.
  intros v ops. induction ops as [|op r IH]; intros x outs x' C P N Hp Z0 H; cbn [run_vops] in H.
  - injection H as <- <-. constructor.
  - destruct (run_vop v op x) as [o x1] eqn:E1. destruct (run_vops v r x1) as [os x2] eqn:E2. injection H as <- <-.
    inversion P; subst. destruct (vop_step _ _ _ _ _ C H1 N Hp Z0 E1) as (A & B1 & B2 & B3).
    econstructor; eauto.
Qed.

(** Elsewhere a write beyond the end does not leave zeros: _inner_extend(..., zero_fill=True) does nothing. *)
Theorem C45_gap_zero_refuted : exists v x b n x',
  v_closed v = false /\ x_no_err x /\ v_write v b x = (Ok (Some n), x')
  /\ ~ stored_at (x_data x) (x_pos x) b (x_data x').
Proof.
  exists (mkWio false true false false), (mkX [1] 3 [] (fun _ => 77)), [5], 1, (mkX [1; 77; 77; 5] 4 [] (fun _ => 77)).
  split; [auto|]. split; [intros e []|]. split; [vm_compute; reflexivity|].
  intros (_ & _ & A). specialize (A 1 ltac:(vm_compute; split; congruence)). vm_compute in A. discriminate.
Qed.
(** An empty write returns None, which means that the call would have blocked. *)
Theorem C45_empty_write_refuted : exists v x, v_closed v = false /\ v_writable v = true /\ x_no_err x /\ zeroing x
  /\ v_write v [] x = (Ok None, x).
Proof.
  exists (mkWio false true false false), (mkX [1] 0 [] (fun _ => 0)). split; [auto|]. split; [auto|].
  split; [intros e []|]. split; [now intros n|]. vm_compute. reflexivity.
Qed.
(** Any other whence is a KeyError, where unix raises OSError. *)
Theorem C45_bad_whence : forall v off wh x, v_closed v = false -> wh < 0 \/ 2 < wh -> v_seek v off wh x = (Err EKey, x).
Proof.
  intros v off wh x C Hw. unfold v_seek, v_check_closed, bind. rewrite C. unfold v_inner_seek. cbn [ret].
  destruct (Z.eqb_spec wh 0); [lia|]. destruct (Z.eqb_spec wh 1); [lia|]. destruct (Z.eqb_spec wh 2); [lia|]. reflexivity.
Qed.

Example C45_example :
  let v := mkWio true true false false in
  run_vops v [RRead 2; RSeek 5 0; RWrite [7;8;9]; RTell; RSize; RSeek 0 0; RRead (-1)]
    (mkX [1;2;3] 0 [IoShort 1; IoShort 2] (fun _ => 0))
  = ([OBytes [1]; OInt 5; OInt 2; OInt 7; OInt 7; OInt 0; OBytes [1;2;3;0;0;7;8]],
     snd (run_vops v [RSeek 0 2] (mkX [1;2;3;0;0;7;8] 0 [] (fun _ => 0)))).
Proof. vm_compute. reflexivity. Qed.

(** * C42: truncate *)

Lemma v_set_end_ok v n x : v_closed v = false -> x_no_err x -> 0 <= x_pos x -> 0 <= n ->
  exists x', v_set_end v n x = (Ok tt, x')
    /\ x_data x' = firstn (Z.to_nat n) (fill_to (x_junk x) (Z.to_nat n) (x_data x)) /\ x_pos x' = x_pos x /\ x_no_err x'.
Proof.
  intros C N Hp Hn. unfold v_set_end. destruct (Z.ltb_spec n 0); [lia|].
  unfold bind at 1. unfold v_inner_tell, set_file_pointer. cbn [Z.eqb Pos.eqb]. rewrite Z.add_0_r.
  destruct (Z.ltb_spec (x_pos x) 0); [lia|]. unfold bind, v_seek, v_check_closed, bind. rewrite C. cbn [ret].
  unfold v_inner_seek, set_file_pointer. cbn [Z.eqb orb]. rewrite !Z.add_0_l.
  destruct (Z.ltb_spec n 0); [lia|]. set (x0 := x_set_pos (x_set_pos x (x_pos x)) n).
  unfold set_end_of_file, bind. destruct (x_next_ok x0 N) as (e & x1 & -> & Ne & D1 & P1 & J1 & N1 & _).
  assert (Go : forall e0, (forall k, e0 <> IoErr k) -> (match e0 with IoErr k => raise (EOS k) | _ => fun y => (Ok tt, x_set_data y (firstn (Z.to_nat (x_pos y)) (fill_to (x_junk y) (Z.to_nat (x_pos y)) (x_data y)))) end) x1
     = (Ok tt, x_set_data x1 (firstn (Z.to_nat n) (fill_to (x_junk x) (Z.to_nat n) (x_data x))))).
  { intros e0 Q. destruct e0 as [| |k]; [| |now destruct (Q k)]; cbv beta iota; rewrite P1, J1, D1; reflexivity. }
  rewrite Go by exact Ne. destruct (Z.ltb_spec (x_pos x) 0); [lia|]. cbn [ret].
  eexists. split; [reflexivity|]. cbn. auto.
Qed.

Lemma padding_ok v q : forall x, x_no_err x -> x_io x = [] -> x_pos x = len (x_data x) ->
  exists x', v_write_padding q v x = (Ok tt, x')
    /\ x_data x' = x_data x ++ repeat 0 (q * Z.to_nat DEFAULT_BUFFER_SIZE) /\ x_pos x' = len (x_data x') /\ x_no_err x' /\ x_io x' = [].
Proof.
  set (B := Z.to_nat DEFAULT_BUFFER_SIZE). induction q as [|q IH]; intros x N E P; cbn [v_write_padding].
  - exists x. cbn. rewrite app_nil_r. auto.
  - unfold bind. fold B. destruct (v_inner_write_ok v (repeat 0 B) x N) as (k & x1 & p & -> & K1 & K2 & Q & D1 & P1 & J1 & N1 & F1).
    { rewrite P. apply len_nonneg. } { right. right. lia. }
    destruct (F1 E) as (E1 & ->). rewrite repeat_length in *.
    assert (p = len (x_data x)) as -> by (subst p; destruct (v_append v); [reflexivity|exact P]).
    unfold len in D1. rewrite Nat2Z.id, write_at_end, firstn_all2 in D1 by (rewrite repeat_length; lia).
    destruct (IH x1 N1 E1) as (x' & -> & D2 & P2 & N2 & E2).
    { rewrite D1, P1, len_app. unfold len. rewrite repeat_length. lia. }
    exists x'. split; [reflexivity|]. split; [|auto]. rewrite D2, D1, <- app_assoc, <- repeat_app. f_equal.
Qed.
Lemma append_zeros_resized c n : len c <= n -> resized c n (c ++ repeat 0 (Z.to_nat (n - len c))).
Proof.
  intros H. split; [rewrite len_app; unfold len at 2; rewrite repeat_length; lia|].
  intros i Hi. rewrite byte_at_app by lia. destruct (Z.ltb_spec i (len c)); [reflexivity|].
  rewrite byte_at_repeat. symmetry. now apply byte_at_over.
Qed.
Lemma firstn_resized c n : 0 <= n <= len c -> resized c n (firstn (Z.to_nat n) c).
Proof. intros H. split; [rewrite len_firstn; lia|]. intros i Hi. apply byte_at_firstn. lia. Qed.

(** Zero filling, when the system works and writes everything it is asked to write. *)
Lemma zero_fill_ok v n x : x_no_err x -> x_io x = [] -> 0 <= x_pos x -> len (x_data x) < n ->
  exists r x', v_zero_fill v n (len (x_data x)) x = (r, x') /\ x_data x' = x_data x ++ repeat 0 (Z.to_nat (n - len (x_data x)))
    /\ if (n - len (x_data x)) mod 8192 =? 0 then r = Err EAssert /\ x_pos x' = n else r = Ok tt /\ x_pos x' = x_pos x.
Proof.
  intros N E Hp Hn. pose proof (len_nonneg (x_data x)) as Hl. unfold v_zero_fill.
  destruct (Z.ltb_spec (len (x_data x)) n); [|lia]. cbn [negb]. unfold bind at 1. unfold v_inner_tell, set_file_pointer.
  cbn [Z.eqb Pos.eqb]. rewrite Z.add_0_r. destruct (Z.ltb_spec (x_pos x) 0); [lia|].
  unfold bind at 1. unfold v_inner_seek at 1, set_file_pointer at 1. cbn [Z.eqb orb]. rewrite Z.add_0_l.
  destruct (Z.ltb_spec (len (x_data x)) 0); [lia|]. unfold bind.
  set (m := n - len (x_data x)). set (x0 := x_set_pos (x_set_pos x (x_pos x)) (len (x_data x))).
  destruct (padding_ok v (Z.to_nat (m / DEFAULT_BUFFER_SIZE)) x0) as (x1 & -> & D1 & P1 & N1 & E1); [exact N|exact E|reflexivity|].
  cbn [x_data x0 x_set_pos] in D1.
  assert (Hm : 0 <= m mod 8192 < 8192) by (apply Z.mod_pos_bound; lia).
  assert (Hd : m = 8192 * (m / 8192) + m mod 8192) by (apply Z.div_mod; lia).
  assert (Hq : 0 <= m / 8192) by (apply Z.div_pos; lia).
  change DEFAULT_BUFFER_SIZE with 8192 in *.
  destruct (v_inner_write_ok v (repeat 0 (Z.to_nat (m mod 8192))) x1 N1) as (k & x2 & p & -> & K1 & K2 & Q & D2 & P2 & J2 & N2 & F2).
  { rewrite P1. apply len_nonneg. } { right. right. lia. }
  destruct (F2 E1) as (E2 & ->). rewrite repeat_length in *.
  assert (p = len (x_data x1)) as -> by (subst p; destruct (v_append v); [reflexivity|exact P1]).
  unfold len in D2. rewrite Nat2Z.id, write_at_end, firstn_all2 in D2 by (rewrite repeat_length; lia).
  rewrite Z2Nat.id in * by lia.
  assert (D3 : x_data x2 = x_data x ++ repeat 0 (Z.to_nat m)).
  { rewrite D2, D1, <- app_assoc, <- repeat_app. do 2 f_equal. lia. }
  destruct (Z.eqb_spec (m mod 8192) 0) as [Z0|Z0].
  - exists (Err EAssert), x2. split; [reflexivity|]. split; [exact D3|]. split; [reflexivity|].
    rewrite P2, Z0, D1, len_app. unfold len at 2. rewrite repeat_length. unfold m in *. lia.
  - rewrite Z.eqb_refl. unfold bind, v_inner_seek, set_file_pointer. cbn [Z.eqb orb]. rewrite Z.add_0_l.
    destruct (Z.ltb_spec (x_pos x) 0); [lia|]. eexists (Ok tt), _. split; [reflexivity|]. split; [exact D3|]. split; [reflexivity|reflexivity].
Qed.

Lemma v_truncate_eq v s x : v_closed v = false -> v_writable v = true -> 0 <= x_pos x ->
  v_truncate v s true x =
  match s with
  | Some m => if m <? 0 then (Err (EOS EINVAL), x) else
      ((if m =? len (x_data x) then ret tt else if m <? len (x_data x) then v_inner_reduce v m else v_zero_fill v m (len (x_data x))) ;; v_size v) x
  | None => ((if x_pos x =? len (x_data x) then ret tt else if x_pos x <? len (x_data x) then v_inner_reduce v (x_pos x)
              else v_zero_fill v (x_pos x) (len (x_data x))) ;; v_size v) x
  end.
Proof.
  intros C Wr Hp. unfold v_truncate, v_check_writable, v_check_closed, v_tell, v_size, v_check_closed, bind. rewrite C, Wr. cbn [ret].
  assert (Go : forall m, 0 <= m -> match
     (if m =? Z.of_nat (length (x_data x)) then ret tt else if m <? Z.of_nat (length (x_data x)) then v_inner_reduce v m
      else (fun s0 => match v_inner_extend v m true s0 with
        | (Ok _, s') => match (match ret tt s' with (Ok _, s'0) => v_inner_size s'0 | (Err e, s'0) => (Err e, s'0) end) with
             | (Ok a, s'0) => (if a =? m then ret tt else v_zero_fill v m a) s'0 | (Err e, s'0) => (Err e, s'0) end
        | (Err e, s') => (Err e, s') end)) x
     with (Ok _, s') => match ret tt s' with (Ok _, s'0) => v_inner_size s'0 | (Err e, s'0) => (Err e, s'0) end | (Err e, s') => (Err e, s') end
   = match (if m =? len (x_data x) then ret tt else if m <? len (x_data x) then v_inner_reduce v m else v_zero_fill v m (len (x_data x))) x
     with (Ok _, s') => match ret tt s' with (Ok _, s'0) => v_inner_size s'0 | (Err e, s'0) => (Err e, s'0) end | (Err e, s') => (Err e, s') end).
  { intros m Hm. fold (len (x_data x)). destruct (Z.eqb_spec m (len (x_data x))); [reflexivity|].
    destruct (Z.ltb_spec m (len (x_data x))); [reflexivity|]. unfold v_inner_extend. destruct (Z.ltb_spec m 0); [lia|]. cbn [ret].
    unfold v_inner_size at 1, get_file_size. fold (len (x_data x)). destruct (Z.eqb_spec (len (x_data x)) m); [lia|]. reflexivity. }
  destruct s as [m|].
  - destruct (Z.ltb_spec m 0); [reflexivity|]. cbn [ret]. exact (Go m H).
  - unfold v_inner_tell, set_file_pointer. cbn [Z.eqb Pos.eqb]. rewrite Z.add_0_r. destruct (Z.ltb_spec (x_pos x) 0); [lia|].
    assert (x_set_pos x (x_pos x) = x) as -> by now destruct x. exact (Go (x_pos x) H).
Qed.

(** truncate(n): when the file is cut or unchanged, or extended by a number of bytes that is not a multiple of 8192. *)
Theorem C42_windows_truncate_partial : forall v s x n,
  v_closed v = false -> v_writable v = true -> x_io x = [] -> 0 <= x_pos x ->
  n = (match s with None => x_pos x | Some m => m end) -> 0 <= n ->
  (n <= len (x_data x) \/ (n - len (x_data x)) mod 8192 <> 0) ->
  exists x', v_truncate v s true x = (Ok n, x') /\ resized (x_data x) n (x_data x') /\ x_pos x' = x_pos x.
Proof.
  intros v s x n C Wr E Hp En Hn Hm. rewrite v_truncate_eq by auto.
  assert (N : x_no_err x) by (unfold x_no_err; rewrite E; intros e []).
  assert (Go : exists x', ((if n =? len (x_data x) then ret tt else if n <? len (x_data x) then v_inner_reduce v n
      else v_zero_fill v n (len (x_data x))) ;; v_size v) x = (Ok n, x') /\ resized (x_data x) n (x_data x') /\ x_pos x' = x_pos x).
  { assert (Fin : forall x', resized (x_data x) n (x_data x') -> v_size v x' = (Ok n, x')).
    { intros x' (L & _). unfold v_size, v_check_closed, bind. rewrite C. cbn [ret]. unfold v_inner_size, get_file_size.
      fold (len (x_data x')). now rewrite L. }
    unfold bind at 1. destruct (Z.eqb_spec n (len (x_data x))) as [->|].
    - exists x. cbn [ret]. assert (R := resized_same (x_data x)). rewrite (Fin x R). auto.
    - destruct (Z.ltb_spec n (len (x_data x))).
      + unfold v_inner_reduce. destruct (v_set_end_ok v n x C N Hp Hn) as (x' & -> & D & P & _).
        assert (R : resized (x_data x) n (x_data x')).
        { rewrite D, fill_short by (unfold len in *; lia). apply firstn_resized. lia. }
        exists x'. rewrite (Fin x' R). auto.
      + destruct (zero_fill_ok v n x N E Hp ltac:(lia)) as (r & x' & -> & D & Q).
        destruct (Z.eqb_spec ((n - len (x_data x)) mod 8192) 0); [lia|]. destruct Q as (-> & P).
        assert (R : resized (x_data x) n (x_data x')) by (rewrite D; apply append_zeros_resized; lia).
        exists x'. rewrite (Fin x' R). auto. }
  destruct s as [m|]; subst n; [|exact Go]. destruct (Z.ltb_spec m 0); [lia|exact Go].
Qed.

(** Extension by a multiple of 8192 bytes always fails an assertion: the last write, of no bytes, returns None, which
    is not 0.  The file has been extended, and the position is left at its end. *)
Theorem C42_multiple_of_8192 : forall v s x n,
  v_closed v = false -> v_writable v = true -> x_io x = [] -> 0 <= x_pos x ->
  n = (match s with None => x_pos x | Some m => m end) -> len (x_data x) < n -> (n - len (x_data x)) mod 8192 = 0 ->
  exists x', v_truncate v s true x = (Err EAssert, x') /\ resized (x_data x) n (x_data x') /\ x_pos x' = n.
Proof.
  intros v s x n C Wr E Hp En Hn Hm. rewrite v_truncate_eq by auto.
  assert (N : x_no_err x) by (unfold x_no_err; rewrite E; intros e []).
  pose proof (len_nonneg (x_data x)) as Hl.
  assert (Go : exists x', ((if n =? len (x_data x) then ret tt else if n <? len (x_data x) then v_inner_reduce v n
      else v_zero_fill v n (len (x_data x))) ;; v_size v) x = (Err EAssert, x') /\ resized (x_data x) n (x_data x') /\ x_pos x' = n).
  { unfold bind at 1. destruct (Z.eqb_spec n (len (x_data x))); [lia|]. destruct (Z.ltb_spec n (len (x_data x))); [lia|].
    destruct (zero_fill_ok v n x N E Hp Hn) as (r & x' & -> & D & Q). rewrite Hm in Q. destruct Q as (-> & P).
    exists x'. split; [reflexivity|]. split; [rewrite D; apply append_zeros_resized; lia|exact P]. }
  destruct s as [m|]; subst n; [|exact Go]. destruct (Z.ltb_spec m 0); [lia|exact Go].
Qed.
Theorem C42_windows_truncate_refuted : exists v x n,
  v_closed v = false /\ v_writable v = true /\ x_io x = [] /\ zeroing x /\ 0 <= x_pos x /\ 0 <= n
  /\ forall x', v_truncate v (Some n) true x <> (Ok n, x').
Proof.
  exists (mkWio true true false false), (mkX [] 0 [] (fun _ => 0)), 8192. repeat (split; [easy|]).
  intros x' H.
  assert (L : len (x_data (mkX [] 0 [] (fun _ => 0))) < 8192) by reflexivity.
  destruct (C42_multiple_of_8192 (mkWio true true false false) (Some 8192) (mkX [] 0 [] (fun _ => 0)) 8192
    eq_refl eq_refl eq_refl (Z.le_refl 0) eq_refl L eq_refl) as (y & E & _).
  rewrite H in E. discriminate E.
Qed.

(** A short write while filling is not noticed: truncate returns the size reached. *)
Theorem C42_short_write_refuted : exists v x n k x',
  v_closed v = false /\ v_writable v = true /\ x_no_err x /\ zeroing x /\ 0 <= n
  /\ v_truncate v (Some n) true x = (Ok k, x') /\ k <> n.
Proof.
  exists (mkWio true true false false), (mkX [] 0 [IoShort 5] (fun _ => 0)), 8193, 6.
  eexists. split; [auto|]. split; [auto|]. split; [intros e [X|[]]; discriminate|]. split; [now intros m|]. split; [lia|].
  split; [vm_compute; reflexivity|lia].
Qed.
(** A failing cut leaves the position moved. *)
Theorem C42_failed_truncate_moves_refuted : exists v x n e x',
  v_closed v = false /\ v_writable v = true /\ v_truncate v (Some n) true x = (Err (EOS e), x')
  /\ x_data x' = x_data x /\ x_pos x' <> x_pos x.
Proof.
  exists (mkWio true true false false), (mkX [1;2;3] 3 [IoErr EIO] (fun _ => 0)), 1, EIO.
  eexists. split; [auto|]. split; [auto|]. split; [vm_compute; reflexivity|]. split; [reflexivity|]. cbn. lia.
Qed.
(** truncate(n, zero_fill=False): the size and the old bytes are right, whatever the system puts in the rest. *)
Theorem C42_no_zero_fill : forall v n x,
  v_closed v = false -> v_writable v = true -> x_no_err x -> 0 <= x_pos x -> 0 <= n ->
  exists x', v_truncate v (Some n) false x = (Ok n, x') /\ len (x_data x') = n /\ x_pos x' = x_pos x
    /\ forall i, 0 <= i < Z.min n (len (x_data x)) -> byte_at (x_data x') i = byte_at (x_data x) i.
Proof.
  intros v n x C Wr N Hp Hn.
  unfold v_truncate, v_check_writable, v_check_closed, v_size, v_check_closed, bind. rewrite C, Wr. cbn [ret].
  destruct (Z.ltb_spec n 0); [lia|]. cbn [ret]. unfold v_inner_size, get_file_size at 1. cbn [ret]. fold (len (x_data x)).
  assert (LF : len (firstn (Z.to_nat n) (fill_to (x_junk x) (Z.to_nat n) (x_data x))) = n).
  { rewrite len_firstn. unfold fill_to. rewrite len_app. unfold len. rewrite map_length, seq_length. lia. }
  assert (BF : forall i, 0 <= i < Z.min n (len (x_data x)) ->
     byte_at (firstn (Z.to_nat n) (fill_to (x_junk x) (Z.to_nat n) (x_data x))) i = byte_at (x_data x) i).
  { intros i Hi. rewrite byte_at_firstn by lia. unfold fill_to. rewrite byte_at_app by lia.
    destruct (Z.ltb_spec i (len (x_data x))); [reflexivity|lia]. }
  destruct (Z.eqb_spec n (len (x_data x))) as [->|].
  - exists x. cbn [ret]. repeat (split; auto).
  - destruct (v_set_end_ok v n x C N Hp Hn) as (x' & E & D & P & _).
    destruct (Z.ltb_spec n (len (x_data x))).
    + unfold v_inner_reduce. rewrite E. exists x'. cbn [ret]. unfold get_file_size. fold (len (x_data x')). rewrite D. now rewrite LF.
    + unfold v_inner_extend. destruct (Z.ltb_spec n 0); [lia|]. rewrite E. cbn [ret]. unfold get_file_size at 1.
      fold (len (x_data x')). assert (LD : len (x_data x') = n) by (rewrite D; exact LF). rewrite LD, Z.eqb_refl. exists x'. cbn [ret]. unfold get_file_size. fold (len (x_data x')).
      rewrite D. now rewrite LF.
Qed.

Example C42_example :
  let v := mkWio true true false false in
  let x := mkX [1;2;3] 1 [] (fun _ => 77) in
  (fst (v_truncate v (Some 5) true x), x_data (snd (v_truncate v (Some 5) true x)), x_pos (snd (v_truncate v (Some 5) true x)),
   x_data (snd (v_truncate v None true x)), x_data (snd (v_truncate v (Some 5) false x)))
  = (Ok 5, [1;2;3;0;0], 1, [1], [1;2;3;77;77]).
Proof. vm_compute. reflexivity. Qed.

Print Assumptions C42_windows_truncate_partial.
Print Assumptions C45_windows_refines_partial.
Print Assumptions C45_gap_zero_refuted.
Print Assumptions C45_empty_write_refuted.
Print Assumptions C45_bad_whence.
Print Assumptions C42_multiple_of_8192.
Print Assumptions C42_windows_truncate_refuted.
Print Assumptions C42_short_write_refuted.
Print Assumptions C42_failed_truncate_moves_refuted.
Print Assumptions C42_no_zero_fill.
