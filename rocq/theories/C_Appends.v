(** Final theorems of C87: what others append to a file is not overwritten by streams in append mode. *)
From Coq Require Import ZArith Ascii String List Bool Lia.
From Verif Require Import M_Base M_Modes M_Registry M_Kernel M_World M_Raw M_Buffered M_Threads M_Windows M_WinSteps S_Bytes S_Raw S_Buffered
  S_Threads S_Demo S_Appends P_Bytes P_Raw P_Frame P_Grow P_Threads C_Buffered C_Threads C_Windows.
Import ListNotations.
Open Scope Z_scope.
Open Scope list_scope.

Definition pool_adds (u : uid) (q : pool tcall rout) : Prop :=
  forall x, In x (q_thr q) -> (forall o p, t_now x = Some (o, p) -> padds u p) /\ Forall no_truncate (t_todo x).
Lemma settle_adds u t o p todo ls b q : pool_adds u q -> padds u p -> Forall no_truncate todo -> pool_adds u (settle t o p todo ls b q).
Proof.
  intros H Hp Ht x Hx. unfold settle in Hx.
  assert (Y : forall y, In x (nth_update (q_thr q) t y) -> x = y \/ In x (q_thr q)).
  { clear. intros y. revert t. generalize (q_thr q). induction l as [|z l IH]; intros [|t]; cbn; auto; intros [->|X]; auto.
    destruct (IH _ X); auto. }
  destruct p; cbn [q_thr] in Hx; apply Y in Hx; destruct Hx as [->|Hx]; auto; cbn [t_now t_todo]; split; auto; intros ? ? [= <- <-]; exact Hp.
Qed.
Lemma pstep_adds u k t q q' : pool_adds u q -> pstep (prog_of k) t q = Some q' ->
  pool_adds u q' /\ bgrows u (q_st q) (q_st q').
Proof.
  intros H. unfold pstep. destruct (nth_error (q_thr q) t) as [x|] eqn:N; [|discriminate]. apply nth_error_In in N.
  destruct (H _ N) as [H1 H2]. destruct x as [[[o p]|] todo]; cbn [t_now t_todo] in *.
  - specialize (H1 _ _ eq_refl). destruct H1 as [a|X m k1 Hm Hk|l p Hp|l p Hp]; [discriminate| | |].
    + destruct (m (q_st q)) as [y b] eqn:E. intros [= <-]. split; [now apply settle_adds|]. unfold settle. destruct (k1 y); cbn; eapply Hm; eauto.
    + destruct (taken_by_someone (q_locks q) l); [discriminate|]. intros [= <-]. split; [now apply settle_adds|].
      unfold settle. destruct p; cbn; apply bgrows_refl.
    + intros [= <-]. split; [now apply settle_adds|]. unfold settle. destruct p; cbn; apply bgrows_refl.
  - destruct todo as [|o todo]; [discriminate|]. intros [= <-]. inversion H2; subst. split.
    + apply settle_adds; auto. now apply prog_padds.
    + unfold settle. destruct (prog_of k o); cbn; apply bgrows_refl.
Qed.
Lemma esteps_adds u k : forall acts q q', pool_adds u q -> appends_to u (fd_of (b_raw (q_st q))) (b_w (q_st q)) ->
  run_esteps u k acts q = Some q' ->
  pool_adds u q' /\ appends_to u (fd_of (b_raw (q_st q'))) (b_w (q_st q')) /\ exists x, file_of u q' = file_of u q ++ x.
Proof.
  induction acts as [|a acts IH]; intros q q' H Ha; cbn [run_esteps].
  { intros [= <-]. split; auto. split; auto. exists []. now rewrite app_nil_r. }
  destruct (run_estep u k a q) as [q1|] eqn:E; [|discriminate]. intros R.
  assert (S : pool_adds u q1 /\ appends_to u (fd_of (b_raw (q_st q1))) (b_w (q_st q1)) /\ exists x, file_of u q1 = file_of u q ++ x).
  { destruct a as [t|e]; cbn [run_estep] in E.
    - destruct (pstep_adds _ _ _ _ _ H E) as (H1 & F & G). split; auto. unfold fd_of. rewrite F. fold (fd_of (b_raw (q_st q))).
      apply G. exact Ha.
    - injection E as <-. split; [exact H|]. cbn [q_st set_world b_raw b_w]. destruct Ha as [A1 A2]. split; [split|].
      + exact A1.
      + intros i. cbn. rewrite upd_same by apply P_Raw.uid_eqb_refl. intros [= <-]. reflexivity.
      + exists e. unfold file_of. cbn. apply content_same. }
  destruct S as (H1 & Ha1 & x & E1). destruct (IH _ _ H1 Ha1 R) as (H2 & Ha2 & y & E2). split; auto. split; auto.
  exists (x ++ y). now rewrite E2, E1, app_assoc.
Qed.

(** Linux: threads make any calls but truncate() on a stream in append mode, in any state of its buffers and with any
    failures of the system.  What is in the file stays in it; what another process appends between any two steps stays in
    one piece, right behind what was in the file at that moment. *)
Theorem C87_appends_survive : forall u k b scripts acts1 e acts2 q1 q2,
  appends_to u (fd_of (b_raw b)) (b_w b) -> Forall (Forall no_truncate) scripts ->
  run_esteps u k acts1 (new_pool b scripts) = Some q1 -> run_esteps u k (EAppend e :: acts2) q1 = Some q2 ->
  exists x y, file_of u q1 = content (b_w b) u ++ x /\ file_of u q2 = file_of u q1 ++ e ++ y.
Proof.
  intros u k b scripts acts1 e acts2 q1 q2 Ha Hs R1 R2.
  assert (P0 : pool_adds u (new_pool b scripts)).
  { intros x Hx. cbn in Hx. apply in_map_iff in Hx. destruct Hx as (s & <- & Hx). cbn. split; [discriminate|].
    rewrite Forall_forall in Hs. auto. }
  destruct (esteps_adds _ _ _ _ _ P0 Ha R1) as (P1 & Ha1 & x & E1).
  cbn [run_esteps run_estep] in R2.
  set (q := mkPool (q_locks q1) (set_world (q_st q1) (other_appends u e (b_w (q_st q1)))) (q_thr q1) (q_log q1)) in *.
  assert (Ha2 : appends_to u (fd_of (b_raw (q_st q))) (b_w (q_st q))).
  { split; [apply Ha1|]. intros i. cbn. rewrite upd_same by apply P_Raw.uid_eqb_refl. intros [= <-]. reflexivity. }
  destruct (esteps_adds u k acts2 q q2 P1 Ha2 R2) as (_ & _ & y & E2).
  exists x, y. split; [exact E1|]. rewrite E2. unfold file_of at 1. cbn. unfold other_appends. rewrite content_same. cbn. now rewrite <- app_assoc.
Qed.

(** * Windows *)

Definition lifts {A} (m' : comp shared A) (m : W A) : Prop := forall x, m' (x, []) = (let '(r, x') := m x in (r, (x', []))).
Lemma lifts_call {A} (m : W A) : lifts (call m) m.
Proof.
  intros y. unfold call. cbn [hd tl]. replace (x_set_data y (x_data y ++ [])) with y; [destruct (m y); reflexivity|].
  destruct y. cbn. now rewrite app_nil_r.
Qed.
Lemma lifts_local {A} (m : W A) : lifts (local m) m.
Proof. intros y. reflexivity. Qed.
Lemma lifts_ret {A} (a : A) : lifts (ret a) (ret a).
Proof. intros y. reflexivity. Qed.
Lemma lifts_raise {A} e : lifts (raise e : comp shared A) (raise e).
Proof. intros y. reflexivity. Qed.
Lemma lifts_bind {A C} (m' : comp shared A) (m : W A) (k' : A -> comp shared C) (k : A -> W C) :
  lifts m' m -> (forall a, lifts (k' a) (k a)) -> lifts (bind m' k') (bind m k).
Proof. intros Hm Hk x. unfold bind. rewrite (Hm x). destruct (m x) as [[a|e] x1]; [apply Hk|reflexivity]. Qed.
(** write() with nothing in between is the one of M_Windows. *)
Theorem C87_windows_calls : forall v b x, s_write v b (x, []) = (let '(r, x') := v_write v b x in (r, (x', []))).
Proof.
  intros v b. change (lifts (s_write v b) (v_write v b)). unfold s_write, v_write, s_inner_write, v_inner_write.
  repeat first [apply lifts_call | apply lifts_local | apply lifts_ret | apply lifts_raise | apply lifts_bind; [|intros]
               | match goal with |- lifts (if ?c then _ else _) _ => destruct c end
               | match goal with |- lifts (match ?c with _ => _ end) _ => destruct c end].
Qed.

(** What others append before the first system call of write(), or after the last, is left alone. *)
Theorem C87_windows_partial : forall v b e x,
  v_closed v = false -> v_writable v = true -> v_append v = true -> x_io x = [] -> b <> [] ->
  exists x', s_write v b (x, [e]) = (Ok (Some (len b)), (x', [])) /\ x_data x' = x_data x ++ e ++ b.
Proof.
  intros v b e x Hc Hw Ha Io Hb.
  assert (E : s_write v b (x, [e]) = s_write v b (x_set_data x (x_data x ++ e), [])).
  { unfold s_write, local, v_check_writable, v_check_closed, bind. rewrite Hc, Hw. cbn [ret]. unfold s_inner_write, bind. rewrite Ha.
    unfold call at 1 5. cbn [hd tl]. replace (x_set_data (x_set_data x (x_data x ++ e)) (x_data (x_set_data x (x_data x ++ e)) ++ []))
      with (x_set_data x (x_data x ++ e)) by (cbn; now rewrite app_nil_r). reflexivity. }
  rewrite E. rewrite C87_windows_calls. clear E. set (y := x_set_data x (x_data x ++ e)).
  assert (v_write v b y = (Ok (Some (len b)), x_set_pos (x_set_data y (x_data y ++ b)) (len (x_data y) + len b))) as ->; [|eexists; split; [reflexivity|cbn; now rewrite <- app_assoc]].
  assert (Iy : x_io y = []) by exact Io. clearbody y.
  unfold v_write, v_check_writable, v_check_closed, bind. rewrite Hc, Hw. cbn [ret]. unfold v_inner_write, bind. rewrite Ha.
  unfold v_inner_seek, v_inner_tell, v_inner_size, set_file_pointer, get_file_size. cbn [Z.eqb orb]. cbn -[Z.of_nat Z.ltb].
  rewrite Z.add_0_r. assert (Z.of_nat (Datatypes.length (x_data y)) <? 0 = false) as -> by (apply Z.ltb_ge; lia). cbn -[Z.of_nat Z.ltb].
  rewrite Z.add_0_r. assert (Z.of_nat (Datatypes.length (x_data y)) <? 0 = false) as -> by (apply Z.ltb_ge; lia). cbn -[Z.of_nat Z.ltb].
  rewrite Z.ltb_irrefl. cbn -[Z.of_nat Z.ltb]. unfold write_file, x_next, bind. cbn -[Z.of_nat Z.ltb]. rewrite Iy. cbn -[Z.of_nat Z.ltb].
  rewrite firstn_all. destruct b as [|z b]; [congruence|]. cbn -[Z.of_nat Z.ltb length fill_to firstn skipn].
  unfold len. rewrite Nat2Z.id. unfold fill_to. rewrite Nat.sub_diag. cbn [seq map]. rewrite app_nil_r, firstn_all.
  rewrite skipn_all2 by lia. rewrite app_nil_r.
  assert (Z.of_nat (Datatypes.length (z :: b)) =? 0 = false) as -> by (apply Z.eqb_neq; cbn; lia). cbn -[Z.of_nat Z.ltb length].
  assert (Z.of_nat (Datatypes.length (z :: b)) =? 0 = false) as -> by (apply Z.eqb_neq; cbn; lia).
  assert (Z.of_nat (Datatypes.length (z :: b)) <? 0 = false) as -> by (apply Z.ltb_ge; lia).
  rewrite Z.ltb_irrefl. reflexivity.
Qed.

(** In between, no: the position has been moved to the end of the file as it was. *)
Definition windows_appends : Prop := forall v b e k x r x' env,
  v_closed v = false -> v_writable v = true -> v_append v = true -> x_io x = [] ->
  s_write v b (x, repeat [] k ++ [e]) = (Ok r, (x', env)) ->
  x_data x' = x_data x ++ e ++ b \/ x_data x' ++ concat env = x_data x ++ b ++ e.
Theorem C87_windows_refuted : ~ windows_appends.
Proof.
  intros H. set (x := mkX [9] 0 [] (fun _ => 0)).
  destruct (s_write (mkWio true true true false) [1;2;3] (x, repeat [] 3 ++ [[7;8;7;8]])) as [r [x' env]] eqn:E.
  assert (r = Ok (Some 3)) as -> by (vm_compute in E; congruence).
  assert (X : x_data x' = [9;1;2;3;8] /\ env = []) by (vm_compute in E; injection E as <- <-; auto).
  destruct (H (mkWio true true true false) [1;2;3] [7;8;7;8] 3%nat x _ x' env eq_refl eq_refl eq_refl eq_refl E) as [Y|Y];
    destruct X as [X1 X2]; rewrite ?X1, ?X2 in Y; discriminate Y.
Qed.

(** * Examples *)
Definition demo_log (k : bkind) (io : list ioev) : bstate :=
  let '(f, w) := demo_open "f" (match k with BWriter => false | _ => true end) true true (demo [9] io [] []) in fresh f 2 w.
(** Two threads, short writes, and another process that appends twice. *)
Example C87_example :
  let acts := repeat (EStep 0) 11 ++ [EAppend [7]; EStep 1] ++ repeat (EStep 0) 5 ++ repeat (EStep 1) 8 ++ [EAppend [8]] ++ repeat (EStep 1) 10 in
  match run_esteps (1, 10) BWriter acts
      (new_pool (demo_log BWriter [IoFull; IoShort 1]) [[TOp (BoWrite [1;2;3])]; [TOp (BoWrite [4;5;6]); TOp BoFlush]]) with
  | Some q => Some (file_of (1, 10) q, q_log q)
  | None => None
  end = Some ([9;1;7;2;3;8;4;5;6],
              [(0%nat, TOp (BoWrite [1;2;3]), OInt 3); (1%nat, TOp (BoWrite [4;5;6]), OInt 3); (1%nat, TOp BoFlush, OUnit)]).
Proof. vm_compute. reflexivity. Qed.
Example C87_appends_to : forall k, appends_to (1, 10) (fd_of (b_raw (demo_log k []))) (b_w (demo_log k [])).
Proof.
  intros k. split.
  - intros o. destruct k; vm_compute; intros [= <-]; reflexivity.
  - intros i. destruct k; vm_compute; intros [= <-]; reflexivity.
Qed.

Print Assumptions C87_appends_survive.
Print Assumptions C87_windows_calls.
Print Assumptions C87_windows_partial.
Print Assumptions C87_windows_refuted.
