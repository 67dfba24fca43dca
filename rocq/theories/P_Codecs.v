(** The two codecs satisfy the contract. *)
From Coq Require Import ZArith List Bool Lia.
From Verif Require Import M_Base M_Text S_Bytes S_Text S_Codecs P_Bytes.
Import ListNotations.
Open Scope Z_scope.

Section Simple.
  Variable next : list Z -> nxt.
  Variable enc1 : Z -> option (list Z).
  Hypothesis next_char : forall l c n, next l = NChar c n -> (1 <= n <= length l)%nat.
  Hypothesis next_app : forall l y c n, next l = NChar c n -> next (l ++ y) = NChar c n.
  Hypothesis next_bad : forall l y, next l = NBad -> next (l ++ y) = NBad.
  Hypothesis next_enc : forall c b y, enc1 c = Some b -> next (b ++ y) = NChar c (length b).

  Notation run := (decode_all next).

  Lemma run_fuel : forall k l fin, (length l <= k)%nat -> run k l fin = run (length l) l fin.
  Proof.
    intros k. induction k as [k IH] using lt_wf_ind. intros l fin H. destruct l as [|x l]; [destruct k; reflexivity|].
    destruct k as [|k]; [cbn in H; lia|]. cbn [decode_all length]. destruct (next (x :: l)) as [| |c n] eqn:E; try reflexivity.
    pose proof (next_char _ _ _ E) as Hn. cbn [length] in *. pose proof (skipn_length n (x :: l)) as Ls. cbn [length] in Ls.
    rewrite (IH k) by lia. destruct (Nat.eq_dec k (length l)) as [->|Nk]; [now rewrite (IH (length l)) by lia|].
    rewrite (IH (length l)) by lia. reflexivity.
  Qed.
  Lemma run_step x l fin : run (length (x :: l)) (x :: l) fin =
    match next (x :: l) with
    | NBad => None
    | NMore => if fin then None else Some ([], x :: l)
    | NChar c n => match run (length (skipn n (x :: l))) (skipn n (x :: l)) fin with None => None | Some (o, b) => Some (c :: o, b) end
    end.
  Proof.
    cbn [length decode_all]. destruct (next (x :: l)) as [| |c n] eqn:E; try reflexivity.
    pose proof (next_char _ _ _ E) as Hn. rewrite run_fuel; [reflexivity|]. rewrite skipn_length. cbn [length] in *. lia.
  Qed.

  Lemma run_app : forall m x, (length x <= m)%nat -> forall y fin,
    match run (length x) x false with
    | Some (o, b) => run (length (x ++ y)) (x ++ y) fin = match run (length (b ++ y)) (b ++ y) fin with Some (o', b') => Some (o ++ o', b') | None => None end
    | None => run (length (x ++ y)) (x ++ y) fin = None
    end.
  Proof.
    induction m as [|m IH]; intros x Hx y fin.
    - destruct x; [|cbn in Hx; lia]. cbn [length decode_all app]. destruct (run (length y) y fin) as [[o b]|]; reflexivity.
    - destruct x as [|z x]; [cbn [length decode_all app]; destruct (run (length y) y fin) as [[o b]|]; reflexivity|].
      rewrite run_step. destruct (next (z :: x)) as [| |c n] eqn:E.
      + destruct (run (length ((z :: x) ++ y)) ((z :: x) ++ y) fin) as [[o b]|]; reflexivity.
      + cbn [app]. rewrite run_step. change (z :: x ++ y) with ((z :: x) ++ y). now rewrite (next_bad _ y E).
      + pose proof (next_char _ _ _ E) as Hn. pose proof (skipn_length n (z :: x)) as Ls.
        specialize (IH (skipn n (z :: x)) ltac:(cbn [length] in *; lia) y fin).
        assert (S1 : run (length ((z :: x) ++ y)) ((z :: x) ++ y) fin =
                  match run (length (skipn n (z :: x) ++ y)) (skipn n (z :: x) ++ y) fin with None => None | Some (o, b) => Some (c :: o, b) end).
        { cbn [app]. rewrite run_step. change (z :: x ++ y) with ((z :: x) ++ y). rewrite (next_app _ y _ _ E).
          rewrite skipn_app. replace (n - length (z :: x))%nat with 0%nat by lia. reflexivity. }
        rewrite S1. destruct (run (length (skipn n (z :: x))) (skipn n (z :: x)) false) as [[o b]|].
        * rewrite IH. destruct (run (length (b ++ y)) (b ++ y) fin) as [[o' b']|]; reflexivity.
        * now rewrite IH.
  Qed.
  Lemma run_keep : forall m l, (length l <= m)%nat -> forall fin o b, run (length l) l fin = Some (o, b) ->
    (exists a, l = a ++ b) /\ (fin = true -> b = []) /\ (length o <= length l)%nat.
  Proof.
    induction m as [|m IH]; intros l Hl fin o b H.
    - destruct l; [|cbn in Hl; lia]. injection H as <- <-. split; [exists []; reflexivity|auto].
    - destruct l as [|z l]; [injection H as <- <-; split; [exists []; reflexivity|auto]|].
      rewrite run_step in H. destruct (next (z :: l)) as [| |c n] eqn:E; [| discriminate H|].
      + destruct fin; [discriminate H|]. injection H as <- <-. split; [exists []; reflexivity|]. split; [discriminate|cbn; lia].
      + pose proof (next_char _ _ _ E) as Hn. pose proof (skipn_length n (z :: l)) as Ls.
        destruct (run (length (skipn n (z :: l))) (skipn n (z :: l)) fin) as [[o' b']|] eqn:R; [|discriminate H]. injection H as <- <-.
        destruct (IH (skipn n (z :: l)) ltac:(cbn [length] in *; lia) fin o' b' R) as ([a Ha] & H1 & H2).
        split; [exists (firstn n (z :: l) ++ a); rewrite <- app_assoc, <- Ha; symmetry; apply firstn_skipn|].
        split; [exact H1|]. cbn [length] in *. lia.
  Qed.
  Lemma run_encode : forall s b, encode_all enc1 s = Some b -> run (length b) b true = Some (s, []).
  Proof.
    induction s as [|c s IH]; intros b H; cbn [encode_all] in H; [injection H as <-; reflexivity|].
    destruct (enc1 c) as [bc|] eqn:E1; [|discriminate H]. destruct (encode_all enc1 s) as [bs|]; [|discriminate H]. injection H as <-.
    pose proof (next_enc c bc bs E1) as N. pose proof (next_char _ _ _ N) as L. destruct bc as [|z bc]; [cbn in L; lia|].
    cbn [app]. rewrite run_step. change (z :: bc ++ bs) with ((z :: bc) ++ bs). rewrite N.
    rewrite skipn_app, skipn_all, Nat.sub_diag. cbn [skipn app]. now rewrite (IH bs eq_refl).
  Qed.

  Lemma simple_good : good_codec (simple_codec next enc1).
  Proof.
    constructor; cbn [simple_codec cd_decode cd_encode cd_d0 cd_e0 fst snd].
    - reflexivity.
    - reflexivity.
    - reflexivity.
    - intros f x y fin out s. cbn [app]. pose proof (run_app (length x) x (le_n _) y fin) as A. destruct (run (length x) x false) as [[o b]|]; [|discriminate].
      intros H. injection H as <- <-. cbn [fst snd]. rewrite A. destruct (run (length (b ++ y)) (b ++ y) fin) as [[o' b']|]; reflexivity.
    - intros f x y fin. cbn [app]. pose proof (run_app (length x) x (le_n _) y fin) as A. destruct (run (length x) x false) as [[o b]|]; [discriminate|].
      intros _. now rewrite A.
    - intros f x out b f'. cbn [app]. destruct (run (length x) x false) as [[o b']|] eqn:E; [|discriminate]. intros H. injection H as <- <- <-.
      now destruct (run_keep (length x) x (le_n _) _ _ _ E).
    - intros f x out b f'. cbn [app]. destruct (run (length x) x true) as [[o b']|] eqn:E; [|discriminate]. intros H. injection H as <- <- <-.
      destruct (run_keep (length x) x (le_n _) _ _ _ E) as (_ & H & _). auto.
    - intros f x fin out b f' Hf. cbn [app]. destruct (run (length x) x fin) as [[o b']|]; [|discriminate]. intros H. injection H as _ _ <-. exact Hf.
    - intros f x fin out s. cbn [app]. destruct (run (length x) x fin) as [[o b']|] eqn:E; [|discriminate]. intros H. injection H as <- _.
      destruct (run_keep (length x) x (le_n _) _ _ _ E) as (_ & _ & H). unfold len. lia.
    - reflexivity.
    - intros s b e. destruct (encode_all enc1 s) as [bs|] eqn:E; [|discriminate]. intros H. injection H as <- <-. cbn [app].
      rewrite (run_encode s bs E). eauto.
  Qed.
End Simple.

Lemma latin1_good : good_codec latin1.
Proof.
  apply simple_good; unfold latin1_next, latin1_enc1.
  - intros [|a l] c n H; [discriminate H|]. injection H as <- <-. cbn. lia.
  - intros [|a l] y c n H; [discriminate H|]. exact H.
  - intros [|a l] y H; discriminate H.
  - intros c b y. destruct (within 0 255 c); [|discriminate]. intros H. injection H as <-. reflexivity.
Qed.

Lemma within_iff a b x : within a b x = true <-> a <= x <= b.
Proof. unfold within. rewrite andb_true_iff, !Z.leb_le. reflexivity. Qed.
Lemma within_true a b x : a <= x <= b -> within a b x = true.
Proof. apply within_iff. Qed.
Lemma within_false a b x : ~ (a <= x <= b) -> within a b x = false.
Proof. intros H. destruct (within a b x) eqn:E; [|reflexivity]. apply within_iff in E. contradiction. Qed.

Lemma utf8_next_char l c n : utf8_next l = NChar c n -> (1 <= n <= length l)%nat.
Proof.
  unfold utf8_next. destruct l as [|a [|b [|d [|e l]]]]; cbv zeta;
  repeat match goal with |- context [if ?x then _ else _] => destruct x end; intros H; try discriminate H; injection H as _ <-; cbn [length]; lia.
Qed.
Lemma utf8_next_app l y c n : utf8_next l = NChar c n -> utf8_next (l ++ y) = NChar c n.
Proof.
  unfold utf8_next. destruct l as [|a [|b [|d [|e l]]]]; cbv zeta; cbn [app];
  repeat match goal with |- context [if ?x then _ else _] => destruct x end; intros H; try discriminate H; exact H.
Qed.
Lemma utf8_next_bad l y : utf8_next l = NBad -> utf8_next (l ++ y) = NBad.
Proof.
  unfold utf8_next. destruct l as [|a [|b [|d [|e l]]]]; cbv zeta; cbn [app];
  repeat match goal with |- context [if ?x then _ else _] => destruct x end; intros H; try discriminate H; exact H.
Qed.
Lemma some_inj {A} (a b : A) : Some a = Some b -> a = b.
Proof. congruence. Qed.
Lemma utf8_two h l y : 2 <= h <= 31 -> 0 <= l < 64 -> utf8_next (192 + h :: 128 + l :: y) = NChar (64 * h + l) 2.
Proof.
  intros Hh Hl. unfold utf8_next. rewrite (within_false 0 127), (within_true 194 223) by lia. unfold tail. rewrite within_true by lia. f_equal. lia.
Qed.
Lemma utf8_three h m l y : 0 <= h <= 15 -> 0 <= m < 64 -> 0 <= l < 64 -> (h = 0 -> 32 <= m) -> (h = 13 -> m <= 31) ->
  utf8_next (224 + h :: 128 + m :: 128 + l :: y) = NChar (4096 * h + 64 * m + l) 3.
Proof.
  intros Hh Hm Hl H0 H13. unfold utf8_next. rewrite (within_false 0 127), (within_false 194 223), (within_true 224 239) by lia. cbv zeta.
  destruct (Z.eqb_spec (224 + h) 224), (Z.eqb_spec (224 + h) 237); rewrite within_true by lia; unfold tail; rewrite within_true by lia; f_equal; lia.
Qed.
Lemma utf8_four h m l r y : 0 <= h <= 4 -> 0 <= m < 64 -> 0 <= l < 64 -> 0 <= r < 64 -> (h = 0 -> 16 <= m) -> (h = 4 -> m <= 15) ->
  utf8_next (240 + h :: 128 + m :: 128 + l :: 128 + r :: y) = NChar (262144 * h + 4096 * m + 64 * l + r) 4.
Proof.
  intros Hh Hm Hl Hr H0 H4. unfold utf8_next. rewrite (within_false 0 127), (within_false 194 223), (within_false 224 239), (within_true 240 244) by lia. cbv zeta.
  destruct (Z.eqb_spec (240 + h) 240), (Z.eqb_spec (240 + h) 244); rewrite within_true by lia; unfold tail;
  rewrite (within_true 128 191 (128 + l)) by lia; rewrite (within_true 128 191 (128 + r)) by lia; f_equal; lia.
Qed.
Lemma split64 z : z = 64 * (z / 64) + z mod 64 /\ 0 <= z mod 64 < 64.
Proof. split; [apply Z.div_mod|apply Z.mod_pos_bound]; lia. Qed.
Lemma utf8_next_enc c b y : utf8_enc1 c = Some b -> utf8_next (b ++ y) = NChar c (length b).
Proof.
  unfold utf8_enc1. destruct (within 0 127 c) eqn:W1.
  { intros H. injection H as <-. unfold utf8_next. cbn [app]. now rewrite W1. }
  destruct (split64 c) as [C1 C2]. destruct (split64 (c / 64)) as [D1 D2]. destruct (split64 (c / 64 / 64)) as [E1 E2].
  replace (c / 4096) with (c / 64 / 64) by (rewrite Z.div_div by lia; reflexivity).
  replace (c / 262144) with (c / 64 / 64 / 64) by (rewrite !Z.div_div by lia; reflexivity).
  generalize dependent (c / 64 / 64 / 64). generalize dependent (c / 64 / 64 mod 64). generalize dependent (c / 64 / 64).
  generalize dependent (c / 64 mod 64). generalize dependent (c / 64). generalize dependent (c mod 64). intros z0 L0 a Ha z1 L1 d Hd z2 L2 e He.
  destruct (within 128 2047 c) eqn:W2.
  { apply within_iff in W2. intros H. apply some_inj in H as <-. cbn [app length]. rewrite utf8_two by lia. f_equal. lia. }
  destruct (within 2048 65535 c) eqn:W3.
  { destruct (within 55296 57343 c) eqn:W4; [discriminate|]. apply within_iff in W3.
    assert (N4 : ~ (55296 <= c <= 57343)) by (intros X; apply within_iff in X; congruence).
    intros H. apply some_inj in H as <-. cbn [app length]. rewrite utf8_three by lia. f_equal. lia. }
  destruct (within 65536 1114111 c) eqn:W5; [|discriminate]. apply within_iff in W5.
  intros H. apply some_inj in H as <-. cbn [app length]. rewrite utf8_four by lia. f_equal. lia.
Qed.
Lemma utf8_good : good_codec utf8.
Proof. apply simple_good; [exact utf8_next_char|exact utf8_next_app|exact utf8_next_bad|exact utf8_next_enc]. Qed.
