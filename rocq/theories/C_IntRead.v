(** Final theorems of C109: interrupted reads. *)
From Coq Require Import ZArith Ascii String List Bool Lia.
From Verif Require Import M_Base M_Modes M_Registry M_Kernel M_World M_Raw M_Buffered M_IntWrite M_IntRead S_Bytes S_Raw
  S_Locks S_LockFile S_Open S_Buffered S_Demo S_IntRead P_Bytes P_Raw P_Buffered P_BufRun C_Buffered.
Import ListNotations.
Open Scope list_scope.
Open Scope Z_scope.

(** * Lists with some elements left out *)
Section Left.
Context {A : Type}.
Lemma left_refl (l : list A) : left_of l l.
Proof. induction l; constructor; auto. Qed.
Lemma left_nil (c : list A) : left_of [] c.
Proof. induction c; constructor; auto. Qed.
Lemma left_trans (a b c : list A) : left_of a b -> left_of b c -> left_of a c.
Proof.
  intros H1 H2. revert a H1. induction H2 as [|x l c H2 IH|x l c H2 IH]; intros a H1; auto.
  - inversion H1; subst; [apply LO_keep|apply LO_drop]; auto.
  - apply LO_drop. auto.
Qed.
Lemma left_app (a b c d : list A) : left_of a c -> left_of b d -> left_of (a ++ b) (c ++ d).
Proof. intros H1 H2. induction H1; cbn [app]; auto; constructor; auto. Qed.
Lemma left_skipn n (l : list A) : left_of (skipn n l) l.
Proof. rewrite <- (firstn_skipn n l) at 2. apply (left_app [] _ _ _ (left_nil _) (left_refl _)). Qed.
Lemma left_firstn n (l : list A) : left_of (firstn n l) l.
Proof.
  rewrite <- (firstn_skipn n l) at 2. rewrite <- (app_nil_r (firstn n l)) at 1. apply left_app; [apply left_refl|apply left_nil].
Qed.
Lemma left_len (a c : list A) : left_of a c -> (length a <= length c)%nat.
Proof. induction 1; cbn; lia. Qed.
End Left.

(** * One call *)

(** Whatever the countdown. *)
Definition ok {A} (m : T A) (b : bstate) (Q : res A -> bstate -> Prop) : Prop :=
  forall n, Q (fst (m (n, b))) (snd (snd (m (n, b)))).
Lemma ok_bind {A C} (m : T A) (f : A -> T C) b Q :
  ok m b (fun r b' => match r with Ok a => ok (f a) b' Q | Err e => Q (Err e) b' end) -> ok (bind m f) b Q.
Proof.
  intros H n. specialize (H n). unfold bind. destruct (m (n, b)) as [[a|e] [n1 b1]]; cbn [fst snd] in *; [apply H|exact H].
Qed.
Lemma ok_instr {C} (m : T C) b (Q : res C -> bstate -> Prop) : Q (Err HANDLER) b -> ok m b Q -> ok (instr ;; m) b Q.
Proof. intros H1 H2. apply ok_bind. intros [|n]; cbn; auto. Qed.
Lemma ok_run {A} (m : B A) b (Q : res A -> bstate -> Prop) : Q (fst (m b)) (snd (m b)) -> ok (run_b m) b Q.
Proof. intros H n. unfold run_b. cbn [snd]. destruct (m b). exact H. Qed.
Lemma ok_getb {C} (f : bstate -> T C) b Q : ok (f b) b Q -> ok (bind getb f) b Q.
Proof. intros H. apply ok_bind, ok_run. exact H. Qed.
Lemma ok_ret {A} (a : A) b (Q : res A -> bstate -> Prop) : Q (Ok a) b -> ok (ret a) b Q.
Proof. intros H n. exact H. Qed.
Lemma ok_raise {A} e b (Q : res A -> bstate -> Prop) : Q (Err e) b -> ok (raise e) b Q.
Proof. intros H n. exact H. Qed.
Lemma ok_weak {A} (m : T A) b (Q Q' : res A -> bstate -> Prop) : ok m b Q -> (forall r b', Q r b' -> Q' r b') -> ok m b Q'.
Proof. intros H1 H2 n. apply H2, H1. Qed.

Section Reads.
Variables (i : inode) (p0 : Z) (del : list Z).
Hypothesis p0_nn : 0 <= p0.
Notation data := (n_data i).

(** The bytes the raw stream has handed over since the beginning. *)
Definition seg (q : Z) : list Z := firstn (Z.to_nat (q - p0)) (skipn (Z.to_nat p0) data).
Record W (o : ofd) (b : bstate) : Prop := mkW {
  W_live : live (b_raw b) (b_w b) o i; W_rd : f_readable (b_raw b) = true; W_ep : no_epipe (b_w b);
  W_size : 0 < b_size b; W_pos : p0 <= o_pos o }.
Definition can (x : list Z) (o : ofd) : Prop := left_of (del ++ x) (seg (o_pos o)).
Lemma can_less x y o : can x o -> left_of y x -> can y o.
Proof. intros H1 H2. eapply left_trans; [|exact H1]. apply left_app; [apply left_refl|exact H2]. Qed.
Lemma seg_more q d : p0 <= q -> slice_at data q d -> seg (q + len d) = seg q ++ d.
Proof.
  intros Hq Sl. unfold seg, len. replace (Z.to_nat (q + Z.of_nat (length d) - p0)) with (Z.to_nat (q - p0) + length d)%nat by lia.
  rewrite (slice_at_eq data q d) at 2 by (auto; lia).
  replace (skipn (Z.to_nat q) data) with (skipn (Z.to_nat (q - p0)) (skipn (Z.to_nat p0) data)) by (rewrite skipn_skipn; f_equal; lia).
  generalize (skipn (Z.to_nat p0) data) as l, (Z.to_nat (q - p0)) as m, (length d) as k. clear.
  induction l as [|x l IH]; intros [|m] k; cbn [Nat.add skipn firstn app]; rewrite ?firstn_nil, ?skipn_nil; auto. now rewrite IH.
Qed.
Lemma seg_mono q q' : q <= q' -> left_of (seg q) (seg q').
Proof.
  intros H. unfold seg. replace (Z.to_nat (q - p0)) with (Nat.min (Z.to_nat (q - p0)) (Z.to_nat (q' - p0))) by lia.
  rewrite <- firstn_firstn. apply left_firstn.
Qed.
Lemma can_mono x o o' : can x o -> o_pos o <= o_pos o' -> can x o'.
Proof. intros H1 H2. eapply left_trans; [exact H1|apply seg_mono, H2]. Qed.
Lemma W_rbuf o b l q : W o b -> W o (set_rbuf b l q).
Proof. intros [A1 A2 A3 A4 A5]. constructor; assumption. Qed.

(** The stream but for the position of the raw one. *)
Definition same (b b' : bstate) : Prop := b_rbuf b' = b_rbuf b /\ b_rpos b' = b_rpos b /\ b_size b' = b_size b.
Lemma same_refl b : same b b. Proof. repeat split. Qed.
Lemma same_trans a b c : same a b -> same b c -> same a c.
Proof. intros (A1 & A2 & A3) (B1 & B2 & B3). repeat split; congruence. Qed.
Lemma same_unread b b' : same b b' -> unread b' = unread b.
Proof. intros (A1 & A2 & _). unfold unread. congruence. Qed.

(** One raw read. *)
Definition got (r : res (option (list Z))) : list Z := match r with Ok (Some d) => d | _ => [] end.
Lemma raw_ok o b n : W o b -> 0 <= n ->
  ok (run_b (on_raw (fun f => raw_read f (Some n)))) b (fun r b' =>
    r <> Err EFuel /\ exists o', W o' b' /\ same b b' /\ o_pos o' = o_pos o + len (got r)
      /\ (got r <> [] -> o_pos o' <= len data) /\ forall x, can x o -> can (x ++ got r) o').
Proof.
  intros [L R E Sz P] Hn. apply ok_run. unfold on_raw.
  destruct (raw_read_cases True (b_raw b) (b_w b) o i n L Hn E (or_introl Logic.I) R) as (r & w' & Er & H). rewrite Er. cbn [fst snd].
  destruct H as [(d & -> & Hl & Sl & _ & ->)|(_ & Hr & Hw)].
  - split; [discriminate|]. exists (set_pos o (o_pos o + len d)). cbn [got].
    split; [|split; [repeat split|split; [reflexivity|split]]].
    + constructor; cbn [b_raw b_w b_size set_world]; auto.
      * apply live_pos; [now apply live_io|]. pose proof (lv_pos _ _ _ _ L). unfold len. lia.
      * unfold no_epipe in *. cbn. intros X. apply E. now apply incl_tl_refl.
      * cbn. unfold len. lia.
    + intros Nd. destruct Sl as [[->|H] _]; [congruence|exact H].
    + intros x C. unfold can. cbn [o_pos set_pos]. rewrite seg_more by (auto; lia). rewrite app_assoc. apply left_app; [exact C|apply left_refl].
  - assert (got r = []) as G by (destruct Hr as [->|[e ->]]; reflexivity). rewrite G. split.
    + destruct Hr as [->|[e ->]]; discriminate.
    + exists o. split; [|split; [repeat split|split; [cbn; lia|split; [congruence|]]]].
      * constructor; cbn [b_raw b_w b_size set_world]; auto; destruct Hw as [->| ->]; auto.
        -- now apply live_io.
        -- unfold no_epipe in *. cbn. intros X. apply E. now apply incl_tl_refl.
      * intros x C. now rewrite app_nil_r.
Qed.

Definition fuel_for (o : ofd) (fuel : nat) : Prop := (Z.to_nat (len data - o_pos o) < fuel)%nat.
Lemma fuel_start o b : W o b -> read_fuel b = (Ok (S (length data)), b) /\ fuel_for o (S (length data)).
Proof.
  intros H. split; [exact (read_fuel_live b o i (W_live _ _ H))|]. pose proof (lv_pos _ _ _ _ (W_live _ _ H)). unfold fuel_for, len. lia.
Qed.

Lemma readall_ok x : forall fuel acc b o, W o b -> fuel_for o fuel -> can (x ++ acc) o ->
  ok (readall_loop_i fuel acc) b (fun r b' =>
    r <> Err EFuel /\ exists o', W o' b' /\ same b b' /\ o_pos o <= o_pos o' /\ can (x ++ got r) o').
Proof.
  induction fuel as [|fuel IH]; intros acc b o HW Hf C; [unfold fuel_for in Hf; lia|]. cbn [readall_loop_i].
  assert (C0 : can (x ++ []) o) by (eapply can_less; [exact C|apply left_app; [apply left_refl|apply left_nil]]).
  apply ok_instr.
  { split; [discriminate|]. exists o. split; [exact HW|]. split; [apply same_refl|]. split; [lia|exact C0]. }
  apply ok_bind. eapply ok_weak; [apply (raw_ok o b _ HW); unfold DEFAULT_BUFFER_SIZE; lia|].
  intros r b1 (Nf & o1 & HW1 & S1 & P1 & E1 & C1). pose proof (len_nonneg (got r)) as Ln.
  destruct r as [d|e]; cbn [got] in *.
  2:{ split; [congruence|]. exists o1. split; [exact HW1|]. split; [exact S1|]. split; [lia|]. eapply can_mono; [exact C0|lia]. }
  apply ok_instr.
  { split; [discriminate|]. exists o1. split; [exact HW1|]. split; [exact S1|]. split; [lia|]. eapply can_mono; [exact C0|lia]. }
  assert (Fin : forall r, got r = acc \/ got r = [] -> r <> Err EFuel -> r <> Err EFuel /\ exists o', W o' b1 /\ same b b1 /\ o_pos o <= o_pos o' /\ can (x ++ got r) o').
  { intros r Hr N. split; [exact N|]. exists o1. split; [exact HW1|]. split; [exact S1|]. split; [lia|].
    destruct Hr as [-> | ->]; (eapply can_mono; [eassumption|lia]). }
  destruct d as [[|y d]|].
  - apply ok_ret. apply Fin; [|discriminate]. destruct acc; [right|left]; reflexivity.
  - eapply ok_weak.
    + apply (IH (acc ++ y :: d) b1 o1 HW1).
      * unfold fuel_for in *. assert (y :: d <> []) as N by discriminate. specialize (E1 N). rewrite len_cons in P1. pose proof (len_nonneg d). lia.
      * rewrite app_assoc. apply C1, C.
    + intros r b2 (N & o2 & HW2 & S2 & P2 & C2). split; [exact N|]. exists o2. split; [exact HW2|]. split; [eapply same_trans; eauto|]. split; [lia|exact C2].
  - apply ok_ret. apply Fin; [|discriminate]. destruct acc; [right|left]; reflexivity.
Qed.

Lemma fill_ok wanted n : 0 <= wanted -> forall fuel av out b o, W o b -> fuel_for o fuel -> can out o ->
  ok (fill_loop_i fuel wanted n av out) b (fun r b' =>
    r <> Err EFuel /\ exists o', W o' b' /\ same b b' /\ o_pos o <= o_pos o' /\
      match r with Ok (out', _, nod) => can out' o' /\ (nod = None \/ nod = Some []) | Err _ => True end).
Proof.
  intros Hw. induction fuel as [|fuel IH]; intros av out b o HW Hf C; [unfold fuel_for in Hf; lia|]. cbn [fill_loop_i].
  apply ok_instr.
  { split; [discriminate|]. exists o. split; [exact HW|]. split; [apply same_refl|]. split; [lia|exact Logic.I]. }
  destruct (av <? n).
  2:{ apply ok_ret. split; [discriminate|]. exists o. split; [exact HW|]. split; [apply same_refl|]. split; [lia|auto]. }
  apply ok_bind. eapply ok_weak; [apply (raw_ok o b _ HW Hw)|].
  intros r b1 (Nf & o1 & HW1 & S1 & P1 & E1 & C1). pose proof (len_nonneg (got r)) as Ln.
  destruct r as [d|e]; cbn [got] in *.
  2:{ split; [congruence|]. exists o1. split; [exact HW1|]. split; [exact S1|]. split; [lia|exact Logic.I]. }
  apply ok_instr.
  { split; [discriminate|]. exists o1. split; [exact HW1|]. split; [exact S1|]. split; [lia|exact Logic.I]. }
  assert (Fin : can out o1) by (eapply can_mono; [exact C|lia]).
  destruct d as [[|y d]|].
  - apply ok_ret. split; [discriminate|]. exists o1. split; [exact HW1|]. split; [exact S1|]. split; [lia|auto].
  - eapply ok_weak.
    + apply (IH (av + Z.of_nat (length (y :: d))) (out ++ y :: d) b1 o1 HW1).
      * unfold fuel_for in *. assert (y :: d <> []) as N by discriminate. specialize (E1 N). rewrite len_cons in P1. pose proof (len_nonneg d). lia.
      * apply C1, C.
    + intros r b2 (N & o2 & HW2 & S2 & P2 & C2). split; [exact N|]. exists o2. split; [exact HW2|]. split; [eapply same_trans; eauto|]. split; [lia|exact C2].
  - apply ok_ret. split; [discriminate|]. exists o1. split; [exact HW1|]. split; [exact S1|]. split; [lia|auto].
Qed.

(** After a call: what it handed over and what is in the buffer. *)
Definition after (r : res (option (list Z))) (b : bstate) : Prop :=
  r <> Err EFuel /\ exists o, W o b /\ can (got r ++ unread b) o.
Lemma cut e b o : W o b -> can (unread b) o -> e <> EFuel -> after (Err e) b.
Proof. intros H C N. split; [congruence|]. exists o. split; auto. Qed.
Lemma handler_not_fuel : HANDLER <> EFuel. Proof. discriminate. Qed.
Hint Resolve handler_not_fuel : core.
Lemma unread_set b l q : unread (set_rbuf b l q) = skipn q l. Proof. reflexivity. Qed.
Lemma upto_onward m (l : list Z) : upto m l ++ onward m l = l.
Proof. apply firstn_skipn. Qed.

Lemma read_unlocked_ok n b o : W o b -> can (unread b) o ->
  (match n with Some k => -1 <= k \/ k = avail b | None => True end) -> ok (read_unlocked_i n) b after.
Proof.
  intros HW C Hk. unfold read_unlocked_i. apply ok_instr; [eapply cut; eauto|]. apply ok_getb.
  destruct (match n with None => true | Some k => k =? -1 end) eqn:All.
  - apply ok_bind, ok_run. cbn [fst snd]. apply ok_instr.
    { eapply cut; [apply W_rbuf, HW| |auto]. rewrite unread_set, skipn_nil. eapply can_less; [exact C|apply left_nil]. }
    apply ok_bind, ok_run. cbn [fst snd]. change (set_rbuf (set_rbuf b [] (b_rpos b)) (b_rbuf (set_rbuf b [] (b_rpos b))) 0) with (set_rbuf b [] 0).
    pose proof (W_rbuf o b [] 0 HW) as HW1. destruct (fuel_start _ _ HW1) as [Ef Hf].
    apply ok_bind, ok_run. rewrite Ef. cbn [fst snd].
    apply ok_bind. eapply ok_weak; [apply (readall_ok (unread b) _ [] _ o HW1 Hf)|].
    { now rewrite app_nil_r. }
    intros r b2 (N & o2 & HW2 & S2 & P2 & C2).
    assert (U : unread b2 = []) by (rewrite (same_unread _ _ S2); reflexivity).
    destruct r as [c|e].
    2:{ eapply cut; [exact HW2| |congruence]. rewrite U. eapply can_less; [exact C2|apply left_nil]. }
    apply ok_instr. { eapply cut; [exact HW2| |auto]. rewrite U. eapply can_less; [exact C2|apply left_nil]. }
    destruct c as [c|].
    + apply ok_ret. split; [discriminate|]. exists o2. split; [exact HW2|]. rewrite U, app_nil_r. exact C2.
    + apply ok_ret. split; [discriminate|]. exists o2. split; [exact HW2|]. rewrite U, app_nil_r. cbn [got] in C2. rewrite app_nil_r in C2.
      destruct (unread b); exact C2.
  - cbv zeta. set (k := match n with Some k => k | None => 0 end). destruct (k <=? avail b) eqn:Ek.
    + apply ok_bind, ok_run. cbn [fst snd]. set (b1 := set_rbuf b (b_rbuf b) (Z.to_nat (Z.of_nat (b_rpos b) + k))).
      assert (HW1 : W o b1) by apply W_rbuf, HW.
      assert (C1 : can (firstn (Z.to_nat k) (unread b) ++ unread b1) o).
      { destruct n as [n|]; [|discriminate]. apply Z.eqb_neq in All. apply Z.leb_le in Ek. unfold k in *. clear k.
        unfold unread, b1. cbn [set_rbuf b_rbuf b_rpos]. unfold avail in *. destruct (Z.ltb_spec n 0) as [Ng|Nn].
        - destruct Hk as [Hk|Hk]; [lia|]. replace (Z.to_nat (Z.of_nat (b_rpos b) + n)) with (length (b_rbuf b)) by lia.
          replace (Z.to_nat n) with O by lia. cbn [firstn app]. rewrite skipn_len. eapply can_less; [exact C|apply left_nil].
        - replace (skipn (Z.to_nat (Z.of_nat (b_rpos b) + n)) (b_rbuf b)) with (skipn (Z.to_nat n) (skipn (b_rpos b) (b_rbuf b)))
            by (rewrite skipn_skipn; f_equal; lia).
          rewrite firstn_skipn. exact C. }
      apply ok_instr; [eapply cut; [exact HW1| |auto]; eapply can_less; [exact C1|apply (left_app [] _ _ _ (left_nil _) (left_refl _))]|].
      apply ok_ret. split; [discriminate|]. exists o. auto.
    + destruct (fuel_start _ _ HW) as [Ef Hf]. apply ok_bind, ok_run. rewrite Ef. cbn [fst snd].
      apply ok_bind. eapply ok_weak; [apply (fill_ok (Z.max (b_size b) k) k) with (o := o); auto|].
      { pose proof (W_size _ _ HW). lia. }
      intros r b2 (N & o2 & HW2 & S2 & P2 & C2). destruct r as [[[out av] nod]|e].
      2:{ eapply cut; [exact HW2| |congruence]. rewrite (same_unread _ _ S2). eapply can_mono; eauto. }
      destruct C2 as [C2 Hn]. apply ok_instr.
      { eapply cut; [exact HW2| |auto]. rewrite (same_unread _ _ S2). eapply can_mono; eauto. }
      set (m := Z.min k av). apply ok_bind, ok_run. cbn [fst snd].
      apply ok_instr.
      { eapply cut; [apply W_rbuf, HW2| |auto]. rewrite unread_set. eapply can_less; [exact C2|].
        eapply left_trans; [apply left_skipn|]. apply left_skipn. }
      apply ok_bind, ok_run. cbn [fst snd]. set (b3 := set_rbuf _ _ 0).
      assert (HW3 : W o2 b3) by (repeat apply W_rbuf; exact HW2).
      assert (U : unread b3 = onward m out) by reflexivity.
      apply ok_instr. { eapply cut; [exact HW3| |auto]. rewrite U. eapply can_less; [exact C2|apply left_skipn]. }
      apply ok_ret. split; [discriminate|]. exists o2. split; [exact HW3|]. rewrite U. destruct out as [|y out].
      * destruct Hn as [-> | ->]; unfold onward; cbn [got app]; rewrite skipn_nil; exact C2.
      * cbn [got]. rewrite upto_onward. exact C2.
Qed.

Lemma peek_fill_ok n b o : W o b -> can (unread b) o ->
  ok (peek_fill_i n) b (fun r b' => r <> Err EFuel /\ exists o', W o' b' /\ can (unread b') o').
Proof.
  intros HW C. unfold peek_fill_i. assert (E0 : forall r : res unit, r <> Err EFuel -> r <> Err EFuel /\ exists o', W o' b /\ can (unread b) o') by eauto.
  apply ok_instr; [apply E0; discriminate|]. apply ok_getb.
  destruct ((avail b <? Z.min n (b_size b)) || (avail b <=? 0)) eqn:Hc; [|apply ok_ret, E0; discriminate].
  pose proof (W_size _ _ HW) as Sz.
  assert (0 <= b_size b - avail b) as Hn by (apply orb_true_iff in Hc; rewrite Z.ltb_lt, Z.leb_le in Hc; lia).
  apply ok_bind. eapply ok_weak; [apply (raw_ok o b _ HW Hn)|].
  intros r b1 (Nf & o1 & HW1 & S1 & P1 & _ & C1). pose proof (len_nonneg (got r)) as Ln.
  assert (E1 : forall r : res unit, r <> Err EFuel -> r <> Err EFuel /\ exists o', W o' b1 /\ can (unread b1) o').
  { intros r' N. split; [exact N|]. exists o1. split; [exact HW1|]. rewrite (same_unread _ _ S1). eapply can_mono; [exact C|lia]. }
  destruct r as [d|e]; [|apply E1; congruence]. apply ok_instr; [apply E1; discriminate|].
  destruct d as [[|y d]|]; try (apply ok_ret, E1; discriminate). cbn [got] in C1.
  apply ok_bind, ok_run. cbn [fst snd]. apply ok_instr.
  { split; [discriminate|]. exists o1. split; [apply W_rbuf, HW1|]. rewrite unread_set. eapply can_less; [apply C1, C|apply left_skipn]. }
  apply ok_run. cbn [fst snd]. split; [discriminate|]. exists o1. split; [repeat apply W_rbuf; exact HW1|]. apply C1, C.
Qed.
Lemma peek_unlocked_ok n b o : W o b -> can (unread b) o ->
  ok (peek_unlocked_i n) b (fun r b' => r <> Err EFuel /\ exists o', W o' b' /\ can (unread b') o').
Proof.
  intros HW C. unfold peek_unlocked_i. apply ok_bind. eapply ok_weak; [apply (peek_fill_ok n b o HW C)|].
  intros r b1 (N & o1 & H1). destruct r as [u|e]; [|split; [congruence|eauto]].
  apply ok_instr; [split; [discriminate|eauto]|]. apply ok_getb, ok_ret. split; [discriminate|eauto].
Qed.
Lemma check_ok o b : W o b -> b_check_closed b = (Ok tt, b).
Proof. intros H. unfold b_check_closed. now rewrite (lv_open _ _ _ _ (W_live _ _ H)). Qed.
Lemma read1_ok n b o : W o b -> can (unread b) o -> ok (read1_i n) b after.
Proof.
  intros HW C. unfold read1_i. apply ok_bind, ok_run. rewrite (check_ok _ _ HW). cbn [fst snd]. apply ok_getb. cbv zeta.
  destruct ((if n <? 0 then b_size b else n) =? 0) eqn:E0.
  { apply ok_ret. split; [discriminate|]. exists o. auto. }
  apply Z.eqb_neq in E0. pose proof (W_size _ _ HW) as Sz. set (k := if n <? 0 then b_size b else n) in *.
  assert (0 < k) as Hk by (unfold k in *; destruct (Z.ltb_spec n 0); lia).
  apply ok_bind. eapply ok_weak; [apply (peek_unlocked_ok 1 b o HW C)|].
  intros r b1 (N & o1 & HW1 & C1). destruct r as [u|e]; [|eapply cut; eauto; congruence].
  apply ok_getb. apply (read_unlocked_ok _ _ o1); auto. lia.
Qed.
End Reads.

Lemma can_next i p0 del x o d : can i p0 del (d ++ x) o <-> can i p0 (del ++ d) x o.
Proof. unfold can. now rewrite app_assoc. Qed.
Lemma run_rcall_ok i p0 del c n b o : 0 <= p0 -> W i p0 o b -> can i p0 del (unread b) o ->
  fst (run_rcall c n b) <> Err EFuel
  /\ exists o', W i p0 o' (snd (run_rcall c n b)) /\ can i p0 (del ++ handed (c, fst (run_rcall c n b))) (unread (snd (run_rcall c n b))) o'.
Proof.
  intros P0 HW C.
  assert (F : forall m, ok m b (after i p0 del) -> (forall r, handed (c, r) = got r) ->
    let r := fst (let '(r, (_, b')) := m (n, b) in (r, b')) in let b' := snd (let '(r, (_, b')) := m (n, b) in (r, b')) in
    r <> Err EFuel /\ exists o', W i p0 o' b' /\ can i p0 (del ++ handed (c, r)) (unread b') o').
  { intros m H G. specialize (H n). destruct (m (n, b)) as [r [n' b']]. cbn [fst snd] in *. destruct H as (N & o' & H1 & H2).
    split; [exact N|]. exists o'. split; [exact H1|]. rewrite G. now apply can_next. }
  destruct c as [k|k|k]; cbn [run_rcall].
  - apply (F (read_i k)); [|now intros [[d|]|e]]. unfold read_i. destruct k as [k|].
    + destruct (Z.ltb_spec k (-1)); [apply ok_raise; eapply cut; eauto; discriminate|]. eapply read_unlocked_ok; eauto.
    + eapply read_unlocked_ok; eauto.
  - apply (F (read1_i k)); [|now intros [[d|]|e]]. eapply read1_ok; eauto.
  - assert (H : ok (peek_i k) b (fun r b' => r <> Err EFuel /\ exists o', W i p0 o' b' /\ can i p0 del (unread b') o')).
    { unfold peek_i. apply ok_bind, ok_run. rewrite (check_ok _ _ _ _ HW). cbn [fst snd]. eapply peek_unlocked_ok; eauto. }
    specialize (H n). destruct (peek_i k (n, b)) as [r [n' b']]. cbn [fst snd] in *. destruct H as (N & o' & H1 & H2). split.
    + destruct r; congruence.
    + exists o'. split; [exact H1|]. cbn [handed]. now rewrite app_nil_r.
Qed.
Lemma run_rcalls_ok i p0 : 0 <= p0 -> forall l del b o, W i p0 o b -> can i p0 del (unread b) o ->
  Forall (fun x => snd x <> Err EFuel) (fst (run_rcalls l b))
  /\ exists o', W i p0 o' (snd (run_rcalls l b)) /\ can i p0 (del ++ all_handed (fst (run_rcalls l b))) (unread (snd (run_rcalls l b))) o'.
Proof.
  intros P0. induction l as [|[c n] l IH]; intros del b o HW C; cbn [run_rcalls].
  - split; [constructor|]. exists o. cbn [fst snd all_handed flat_map]. rewrite app_nil_r. auto.
  - destruct (run_rcall_ok i p0 del c n b o P0 HW C) as (N & o1 & HW1 & C1). destruct (run_rcall c n b) as [r b1]. cbn [fst snd] in *.
    destruct (IH _ _ _ HW1 C1) as (N2 & o2 & HW2 & C2). destruct (run_rcalls l b1) as [log b2]. cbn [fst snd] in *.
    split; [constructor; auto|]. exists o2. split; [exact HW2|]. cbn [all_handed flat_map]. fold (all_handed log). now rewrite app_assoc.
Qed.

(** * In order, nothing twice *)

(** Whatever calls are made, interrupted at whatever instructions, and whichever reads of the system fail or give less: what
    the calls hand over, followed by what is left in the buffer, is the file from where it began, in order, with some
    bytes left out; the loops end. *)
Theorem C109_in_order_partial : forall f size w o i l log b',
  live f w o i -> f_readable f = true -> ~ In (IoErr EPIPE) (w_io w) -> 0 < size ->
  run_rcalls l (fresh f size w) = (log, b') ->
  left_of (all_handed log ++ unread b') (skipn (Z.to_nat (o_pos o)) (n_data i))
  /\ Forall (fun x => snd x <> Err EFuel) log.
Proof.
  intros f size w o i l log b' L R E Sz Run. pose proof (lv_pos _ _ _ _ L) as P0.
  assert (HW : W i (o_pos o) o (fresh f size w)) by (constructor; auto; lia).
  destruct (run_rcalls_ok i (o_pos o) P0 l [] _ o HW) as (N & o' & HW' & C'); [apply left_nil|]. rewrite Run in *. cbn [fst snd] in *.
  split; [|exact N]. eapply left_trans; [exact C'|]. apply left_firstn.
Qed.

Lemma fuel_is b : exists m, read_fuel b = (Ok (S m), b).
Proof. unfold read_fuel, bind, on_raw, readall_fuel. destruct b. cbn. eexists. reflexivity. Qed.

(** * Calls that are not interrupted *)

Definition agrees {A} (m : T A) (m' : B A) (b : bstate) : Prop :=
  forall n r n' b', m (n, b) = (r, (n', b')) -> r <> Err HANDLER -> m' b = (r, b').
Lemma ag_bind {A C} (m : T A) (f : A -> T C) m' f' b : agrees m m' b ->
  (forall a b1, m' b = (Ok a, b1) -> agrees (f a) (f' a) b1) -> agrees (bind m f) (bind m' f') b.
Proof.
  intros H G n r n' b' E N. unfold bind in *. specialize (H n).
  destruct (m (n, b)) as [[a|e] [n1 b1]].
  - rewrite (H _ _ _ eq_refl) by discriminate. eapply G; eauto. apply (H _ _ _ eq_refl). discriminate.
  - injection E as <- <- <-. rewrite (H _ _ _ eq_refl); [reflexivity|congruence].
Qed.
Lemma ag_instr {C} (m : T C) m' b : agrees m m' b -> agrees (instr ;; m) m' b.
Proof. intros H [|n] r n' b' E N; cbn in E; [injection E as <- <- <-; congruence|]. eauto. Qed.
Lemma ag_run {A} (m : B A) b : agrees (run_b m) m b.
Proof. intros n r n' b' E _. unfold run_b in E. cbn [fst snd] in E. destruct (m b). congruence. Qed.
Lemma ag_ret {A} (a : A) b : agrees (ret a) (ret a) b.
Proof. intros n r n' b' E _. injection E as <- _ <-. reflexivity. Qed.
Lemma ag_raise {A} e b : agrees (@raise _ A e) (raise e) b.
Proof. intros n r n' b' E _. injection E as <- _ <-. reflexivity. Qed.
Lemma ag_getb {C} (f : bstate -> T C) m' b : agrees (f b) m' b -> agrees (bind getb f) m' b.
Proof. intros H n r n' b' E. exact (H n r n' b' E). Qed.
Lemma ag_store {C} l q (m : T C) (m' : B C) b : agrees m m' (set_rbuf b l q) ->
  agrees (put_buf l ;; instr ;; put_pos q ;; m) (fun b => m' (set_rbuf b l q)) b.
Proof.
  intros H [|n] r n' b' E N.
  - injection E as <- <- <-. congruence.
  - exact (H n r n' b' E N).
Qed.
Lemma ag_ext {A} (m : T A) m1 m2 b : m1 b = m2 b -> agrees m m1 b -> agrees m m2 b.
Proof. intros E H n r n' b' X N. rewrite <- E. eauto. Qed.

Definition tidy (b : bstate) : Prop := (b_rpos b <= length (b_rbuf b))%nat.
Lemma tidy_avail b : tidy b -> avail b = Z.of_nat (length (unread b)).
Proof. unfold tidy, avail, unread. intros H. rewrite skipn_length. lia. Qed.

Lemma readall_agrees : forall fuel acc b,
  agrees (readall_loop_i fuel acc) (on_raw (fun f => readall_loop fuel f acc)) b.
Proof.
  induction fuel as [|fuel IH]; intros acc b; cbn [readall_loop_i readall_loop].
  - intros n r n' b' E _. cbn in E. injection E as <- <- <-. destruct b; reflexivity.
  - apply ag_instr.
    apply (ag_ext _ (bind (on_raw (fun f => raw_read f (Some DEFAULT_BUFFER_SIZE))) (fun d => match d with
      | Some ((_ :: _) as c) => on_raw (fun f => readall_loop fuel f (acc ++ c))
      | _ => ret (match acc with [] => d | _ => Some acc end) end))).
    { unfold bind, on_raw. change (raw_read_n (b_raw b) DEFAULT_BUFFER_SIZE) with (raw_read (b_raw b) (Some DEFAULT_BUFFER_SIZE)).
      destruct (raw_read (b_raw b) (Some DEFAULT_BUFFER_SIZE) (b_w b)) as [[[[|x d]|]|e] w1]; cbn [b_raw b_w set_world]; reflexivity. }
    apply ag_bind; [apply ag_run|].
    + intros a b1 _. apply ag_instr. destruct a as [[|x d]|]; [apply ag_ret|apply IH|apply ag_ret].
Qed.
Definition with_len (r : list Z * option (list Z)) : list Z * Z * option (list Z) := (fst r, Z.of_nat (length (fst r)), snd r).
Lemma fill_agrees wanted n : forall fuel out b,
  agrees (fill_loop_i fuel wanted n (Z.of_nat (length out)) out) (r <- fill_loop fuel wanted n out ;; ret (with_len r)) b.
Proof.
  induction fuel as [|fuel IH]; intros out b; cbn [fill_loop_i fill_loop]; [apply ag_raise|]. apply ag_instr.
  destruct (Z.of_nat (length out) <? n); [|apply ag_ret].
  apply (ag_ext _ (bind (on_raw (fun f => raw_read f (Some wanted))) (fun c => match c with
      | None => ret (with_len (out, None))
      | Some [] => ret (with_len (out, Some []))
      | Some c => r <- fill_loop fuel wanted n (out ++ c) ;; ret (with_len r) end))).
  { unfold bind. destruct (on_raw (fun f => raw_read f (Some wanted)) b) as [[[[|x c]|]|e] b1]; reflexivity. }
  apply ag_bind; [apply ag_run|].
  - intros a b1 _. apply ag_instr. destruct a as [[|x d]|]; [apply ag_ret| |apply ag_ret].
    replace (Z.of_nat (length out) + Z.of_nat (length (x :: d))) with (Z.of_nat (length (out ++ x :: d))) by (rewrite app_length; lia).
    apply IH.
Qed.

Lemma read_unlocked_agrees n b : tidy b -> (match n with Some k => -1 <= k | None => True end) ->
  agrees (read_unlocked_i n) (read_unlocked n) b.
Proof.
  intros Ti Hn. unfold read_unlocked_i. apply ag_instr, ag_getb. cbv zeta. rewrite (tidy_avail b Ti).
  destruct (match n with None => true | Some k => k =? -1 end) eqn:All.
  - apply (ag_ext _ (fun b1 => (c <- on_raw raw_readall ;;
       match c with None => ret (match unread b with [] => None | l => Some l end) | Some c => ret (Some (unread b ++ c)) end) (set_rbuf b1 [] 0))).
    { unfold read_unlocked. cbv zeta. rewrite All. reflexivity. }
    apply ag_store. intros m r m' b' E N.
    change ((c <- (fuel <- run_b read_fuel ;; readall_loop_i fuel []) ;; (instr ;; match c with None => ret (match unread b with [] => None | l => Some l end) | Some c => ret (Some (unread b ++ c)) end)) (m, set_rbuf b [] 0) = (r, (m', b'))) in E.
    revert m r m' b' E N. apply ag_bind.
    + intros m r m' b' E N. exact (readall_agrees _ _ _ m r m' b' E N).
    + intros a b1 _. apply ag_instr. destruct a; apply ag_ret.
  - set (k := match n with Some k => k | None => 0 end).
    assert (0 <= k) as Hk by (unfold k; destruct n; [apply Z.eqb_neq in All; lia|lia]).
    destruct (k <=? Z.of_nat (length (unread b))) eqn:Ek.
    + apply (ag_ext _ (fun b => (Ok (Some (firstn (Z.to_nat k) (unread b))), set_rbuf b (b_rbuf b) (b_rpos b + Z.to_nat k)))).
      { unfold read_unlocked. cbv zeta. rewrite All. fold k. rewrite Ek. reflexivity. }
      intros [|m] r m' b' E N; injection E as <- <- <-; [congruence|]. f_equal. f_equal. lia.
    + apply (ag_ext _ (bind read_fuel (fun fuel => bind (r <- fill_loop fuel (Z.max (b_size b) k) k (unread b) ;; ret (with_len r))
         (fun r => let '(out, av, nodata) := r in
           (fun b => (Ok (match out with [] => nodata | _ => Some (upto (Z.min k av) out) end), set_rbuf b (onward (Z.min k av) out) 0)))))).
      { unfold read_unlocked. cbv zeta. rewrite All. fold k. rewrite Ek. unfold bind at 1 4. destruct (read_fuel b) as [[fuel|e] b1]; [|reflexivity].
        unfold bind. destruct (fill_loop fuel (Z.max (b_size b) k) k (unread b) b1) as [[[out nod]|e] b2]; [|reflexivity].
        unfold ret, with_len, upto, onward. cbn [fst snd].
        destruct (Z.ltb_spec (Z.min k (Z.of_nat (length out))) 0); [lia|]. reflexivity. }
      apply ag_bind; [apply ag_run|].
      * intros fuel b1 _. apply ag_bind; [apply fill_agrees|].
        -- intros [[out av] nod] b2 _. apply ag_instr.
           apply (ag_store _ _ _ (fun b => (Ok (match out with [] => nod | _ => Some (upto (Z.min k av) out) end), b))).
           apply ag_instr. apply ag_ret.
Qed.
Lemma peek_unlocked_agrees n b : tidy b -> agrees (peek_unlocked_i n) (peek_unlocked n) b.
Proof.
  intros Ti. unfold peek_unlocked_i, peek_unlocked. apply ag_bind.
  - unfold peek_fill_i. apply ag_instr, ag_getb. cbv zeta. rewrite (tidy_avail b Ti).
    set (have := Z.of_nat (length (unread b))). destruct ((have <? Z.min n (b_size b)) || (have <=? 0)) eqn:Hc.
    + apply (ag_ext _ (bind (on_raw (fun f => raw_read f (Some (b_size b - have)))) (fun c => match c with
        | Some ((_ :: _) as c) => fun b1 => (Ok tt, set_rbuf b1 (unread b ++ c) 0)
        | _ => ret tt end))).
      { fold have. rewrite Hc. unfold bind, on_raw. destruct (raw_read (b_raw b) (Some (b_size b - have)) (b_w b)) as [[[[|x c]|]|e] w1]; reflexivity. }
      apply ag_bind; [apply ag_run|]. intros a b1 _. apply ag_instr. destruct a as [[|x d]|]; [apply ag_ret| |apply ag_ret].
      intros [|m] r m' b' E N; injection E as <- <- <-; [congruence|]. reflexivity.
    + apply (ag_ext _ (ret tt)); [|apply ag_ret]. fold have. now rewrite Hc.
  - intros _ b1 _. apply ag_instr, ag_getb. intros m r m' b' E N. injection E as <- <- <-. reflexivity.
Qed.
Lemma tidy_set b l : tidy (set_rbuf b l 0). Proof. unfold tidy. cbn. lia. Qed.
Lemma tidy_raw {A} (m : rawio -> M A) b : tidy b -> tidy (snd (on_raw m b)).
Proof. intros H. unfold on_raw. destruct (m (b_raw b) (b_w b)). exact H. Qed.
Lemma tidy_peek n b : tidy b -> tidy (snd (peek_unlocked n b)).
Proof.
  intros Ti. unfold peek_unlocked, bind at 1. cbv zeta.
  destruct ((Z.of_nat (length (unread b)) <? Z.min n (b_size b)) || (Z.of_nat (length (unread b)) <=? 0)); [|exact Ti].
  unfold bind. pose proof (tidy_raw (fun f => raw_read f (Some (b_size b - Z.of_nat (length (unread b))))) b Ti) as T1.
  destruct (on_raw (fun f => raw_read f (Some (b_size b - Z.of_nat (length (unread b))))) b) as [[[[|x d]|]|e] b1]; cbn [ret fst snd] in *; auto.
  apply tidy_set.
Qed.
Lemma tidy_fill wanted n : forall fuel out b, tidy b -> tidy (snd (fill_loop fuel wanted n out b)).
Proof.
  induction fuel as [|fuel IH]; intros out b Ti; cbn [fill_loop]; [exact Ti|]. destruct (Z.of_nat (length out) <? n); [|exact Ti].
  unfold bind. pose proof (tidy_raw (fun f => raw_read f (Some wanted)) b Ti) as T1.
  destruct (on_raw (fun f => raw_read f (Some wanted)) b) as [[[[|x d]|]|e] b1]; cbn [ret fst snd] in *; auto.
Qed.
Lemma tidy_read n b : tidy b -> tidy (snd (read_unlocked n b)).
Proof.
  intros Ti. unfold read_unlocked. cbv zeta. destruct (match n with None => true | Some k => k =? -1 end).
  - unfold bind at 1, reset_read_buf. unfold bind. pose proof (tidy_raw raw_readall (set_rbuf b [] 0) (tidy_set b [])) as T1.
    destruct (on_raw raw_readall (set_rbuf b [] 0)) as [[[d|]|e] b1]; exact T1.
  - set (k := match n with Some k => k | None => 0 end). destruct (Z.leb_spec k (Z.of_nat (length (unread b)))) as [Le|Gt].
    + cbn [snd]. unfold tidy in *. cbn [set_rbuf b_rpos b_rbuf]. unfold unread in Le. rewrite skipn_length in Le. lia.
    + unfold bind at 1. destruct (fuel_is b) as [m ->]. unfold bind at 1.
      pose proof (tidy_fill (Z.max (b_size b) k) k (S m) (unread b) b Ti) as T1.
      destruct (fill_loop (S m) (Z.max (b_size b) k) k (unread b) b) as [[[out nod]|e] b2]; [|exact T1]. apply tidy_set.
Qed.

(** The method of M_Buffered that each call stands for. *)
Definition plain (c : rcall) : B (option (list Z)) :=
  match c with
  | IRead n => b_read BReader n
  | IRead1 n => b_read1 BReader n
  | IPeek n => d <- b_peek BReader n ;; ret (Some d)
  end.
(** A call in which the handler does not raise is that of M_Buffered (to which C31 applies), as long as no call was
    interrupted before; the stream is then fit for the next one. *)
Theorem C109_same_calls : forall c n b r b', (b_rpos b <= length (b_rbuf b))%nat -> 0 < b_size b ->
  run_rcall c n b = (r, b') -> r <> Err HANDLER ->
  plain c b = (r, b') /\ (b_rpos b' <= length (b_rbuf b'))%nat.
Proof.
  intros c n b r b' Ti Sz E N.
  assert (X : forall A (m : T A) (m' : B A) r1 k b1, agrees m m' b -> tidy (snd (m' b)) -> m (n, b) = (r1, (k, b1)) -> r1 <> Err HANDLER ->
    m' b = (r1, b1) /\ tidy b1).
  { intros A m m' r1 k b1 Ag T1 E1 N1. pose proof (Ag _ _ _ _ E1 N1) as E2. rewrite E2 in T1. auto. }
  destruct c as [k|k|k]; cbn [run_rcall plain] in *.
  - destruct (read_i k (n, b)) as [r1 [k1 b1]] eqn:E1. injection E as -> ->. eapply X; eauto.
    + unfold read_i. cbn [b_read]. unfold reader_read. destruct k as [k|].
      * destruct (Z.ltb_spec k (-1)); [apply ag_raise|]. apply read_unlocked_agrees; auto.
      * apply read_unlocked_agrees; auto.
    + cbn [b_read]. unfold reader_read. destruct (match k with Some k => k <? -1 | None => false end); [exact Ti|apply tidy_read, Ti].
  - destruct (read1_i k (n, b)) as [r1 [k1 b1]] eqn:E1. injection E as -> ->. cbn [b_read1]. eapply X; eauto.
    + unfold read1_i, reader_read1. apply ag_bind; [apply ag_run|]. intros u0 b0 Ec.
      assert (b0 = b) as Eb by (unfold b_check_closed in Ec; destruct (f_closed (b_raw b)); congruence). rewrite Eb. clear b0 Eb Ec.
      apply ag_getb. cbv zeta. set (q := if k <? 0 then b_size b else k). destruct (Z.eqb_spec q 0) as [E0|N0].
      * apply (ag_ext _ (ret (Some []))); [|apply ag_ret]. fold q. rewrite E0. reflexivity.
      * assert (0 < q) as Hq by (unfold q in *; destruct (Z.ltb_spec k 0); lia).
        apply (ag_ext _ (peek_unlocked 1 ;; fun b => read_unlocked (Some (Z.min q (Z.of_nat (length (unread b))))) b)).
        { fold q. destruct (Z.eqb_spec q 0); [lia|reflexivity]. }
        apply ag_bind; [apply peek_unlocked_agrees, Ti|]. intros d b2 Ep. apply ag_getb.
        assert (Ti2 : tidy b2) by (pose proof (tidy_peek 1 b Ti) as T2; rewrite Ep in T2; exact T2).
        rewrite (tidy_avail b2 Ti2). apply (read_unlocked_agrees (Some (Z.min q (Z.of_nat (length (unread b2))))) b2 Ti2). lia.
    + unfold reader_read1. unfold bind at 1, b_check_closed. destruct (f_closed (b_raw b)); [exact Ti|]. cbv zeta.
      match goal with |- context [if ?c then (Ok (Some []), b) else _] => destruct c end; [exact Ti|].
      unfold bind. pose proof (tidy_peek 1 b Ti) as T2. destruct (peek_unlocked 1 b) as [[d|e] b2]; [|exact T2]. apply tidy_read, T2.
  - destruct (peek_i k (n, b)) as [r1 [k1 b1]] eqn:E1. injection E as <- ->.
    assert (N1 : r1 <> Err HANDLER) by (destruct r1; congruence).
    destruct (X _ (peek_i k) (b_peek BReader k) r1 k1 b') as [E2 T2]; auto.
    + unfold peek_i. cbn [b_peek]. unfold reader_peek. apply ag_bind; [apply ag_run|]. intros u0 b0 Ec.
      assert (b0 = b) as Eb by (unfold b_check_closed in Ec; destruct (f_closed (b_raw b)); congruence). rewrite Eb. clear b0 Eb Ec.
      apply peek_unlocked_agrees, Ti.
    + cbn [b_peek]. unfold reader_peek, bind, b_check_closed. destruct (f_closed (b_raw b)); [exact Ti|]. apply tidy_peek, Ti.
    + split; [|exact T2]. unfold bind. rewrite E2. destruct r1; reflexivity.
Qed.

(** * Refuted *)

(** Expected: what interrupted and uninterrupted calls hand over is the file, with nothing left out. *)
Definition nothing_lost : Prop := forall f size w o i l log b', live f w o i -> f_readable f = true -> w_io w = [] -> 0 < size ->
  run_rcalls l (fresh f size w) = (log, b') -> first_part (all_handed log) (skipn (Z.to_nat (o_pos o)) (n_data i)).
(** Expected: a read() of some bytes that returns none means that there are none. *)
Definition end_is_end : Prop := forall f size w o i l log b' n b2 d, live f w o i -> f_readable f = true -> w_io w = [] -> 0 < size ->
  run_rcalls l (fresh f size w) = (log, b') -> 0 < n -> (exists log', log = log' ++ [(IRead (Some n), Ok (Some []))]) ->
  b_read BReader (Some n) b' = (Ok (Some d), b2) -> d = [].

Definition digits (n : nat) : list Z := map Z.of_nat (seq 1 n).
Definition demo_r (n : nat) : rawio * world := demo_open "f" true false false (demo (digits n) [] [] []).
Lemma demo_r_live n : exists o i, live (fst (demo_r n)) (snd (demo_r n)) o i /\ f_readable (fst (demo_r n)) = true
  /\ w_io (snd (demo_r n)) = [] /\ o_pos o = 0 /\ n_data i = digits n.
Proof. eexists. eexists. split; [constructor; cbn; try reflexivity; lia|]. repeat split. Qed.

(** The second read() is interrupted when the raw stream has handed over bytes 9 to 18. *)
Definition losing : list (rcall * nat) := [(IRead (Some 2), 100%nat); (IRead (Some 10), 2%nat); (IRead None, 100%nat)].
Example ex_losing : fst (run_rcalls losing (fresh (fst (demo_r 20)) 8 (snd (demo_r 20)))) =
  [(IRead (Some 2), Ok (Some [1; 2])); (IRead (Some 10), Err HANDLER); (IRead None, Ok (Some [3; 4; 5; 6; 7; 8; 19; 20]))].
Proof. vm_compute. reflexivity. Qed.
Theorem C109_lost_refuted : ~ nothing_lost.
Proof.
  intros H. destruct (demo_r_live 20) as (o & i & L & R & E & P & D).
  destruct (run_rcalls losing (fresh (fst (demo_r 20)) 8 (snd (demo_r 20)))) as [log b'] eqn:Run.
  pose proof ex_losing as X. rewrite Run in X. cbn [fst] in X.
  destruct (H _ 8 _ o i losing log b' L R E ltac:(lia) Run) as [t Ht]. rewrite P, D, X in Ht. vm_compute in Ht. congruence.
Qed.

(** read() is interrupted between the two assignments of _reset_read_buf: _read_pos lies beyond the empty buffer.  The next
    read(4) gets the last two bytes, takes itself to be 4 bytes short, and returns b"". *)
Definition ending : list (rcall * nat) := [(IRead (Some 1), 100%nat); (IRead (Some 6), 100%nat); (IRead None, 1%nat); (IRead (Some 4), 100%nat)].
Example ex_ending : fst (run_rcalls ending (fresh (fst (demo_r 10)) 8 (snd (demo_r 10)))) =
  [(IRead (Some 1), Ok (Some [1])); (IRead (Some 6), Ok (Some [2; 3; 4; 5; 6; 7])); (IRead None, Err HANDLER); (IRead (Some 4), Ok (Some []))]
  /\ fst (b_read BReader (Some 4) (snd (run_rcalls ending (fresh (fst (demo_r 10)) 8 (snd (demo_r 10)))))) = Ok (Some [9; 10]).
Proof. split; vm_compute; reflexivity. Qed.
Theorem C109_end_refuted : ~ end_is_end.
Proof.
  intros H. destruct (demo_r_live 10) as (o & i & L & R & E & P & D).
  destruct (run_rcalls ending (fresh (fst (demo_r 10)) 8 (snd (demo_r 10)))) as [log b'] eqn:Run.
  pose proof ex_ending as [X1 X2]. rewrite Run in X1, X2. cbn [fst snd] in X1, X2.
  destruct (b_read BReader (Some 4) b') as [r b2] eqn:Er. cbn [fst] in X2.
  assert (@nil Z = [9; 10] -> False) as No by discriminate. apply No. symmetry.
  apply (H _ 8 _ o i ending log b' 4 b2 [9; 10] L R E ltac:(lia) Run ltac:(lia)).
  - rewrite X1. exists [(IRead (Some 1), Ok (Some [1])); (IRead (Some 6), Ok (Some [2; 3; 4; 5; 6; 7])); (IRead None, Err HANDLER)]. reflexivity.
  - rewrite Er, X2. reflexivity.
Qed.

(** An interruption before anything was read leaves no trace: the call can be repeated. *)
Example ex_repeat : fst (run_rcalls [(IRead (Some 2), 100%nat); (IRead (Some 10), 1%nat); (IRead (Some 10), 100%nat); (IPeek 1, 100%nat); (IRead1 (-1), 100%nat)]
    (fresh (fst (demo_r 20)) 8 (snd (demo_r 20)))) =
  [(IRead (Some 2), Ok (Some [1; 2])); (IRead (Some 10), Err HANDLER); (IRead (Some 10), Ok (Some [3; 4; 5; 6; 7; 8; 9; 10; 11; 12]));
   (IPeek 1, Ok (Some [13; 14; 15; 16; 17; 18])); (IRead1 (-1), Ok (Some [13; 14; 15; 16; 17; 18]))].
Proof. vm_compute. reflexivity. Qed.

Print Assumptions C109_in_order_partial.
Print Assumptions C109_same_calls.
Print Assumptions C109_lost_refuted.
Print Assumptions C109_end_refuted.
