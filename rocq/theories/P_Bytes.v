(** The list operations of M_World satisfy the pointwise specifications of S_Bytes. *)
From Coq Require Import ZArith List Bool Lia.
From Verif Require Import M_Base S_Bytes M_World.
Import ListNotations.
Open Scope Z_scope.

Lemma len_nonneg {A} (l : list A) : 0 <= len l.
Proof. unfold len; lia. Qed.
Lemma len_app {A} (a b : list A) : len (a ++ b) = len a + len b.
Proof. unfold len; rewrite app_length; lia. Qed.
Lemma len_nil {A} : len (@nil A) = 0.
Proof. reflexivity. Qed.
Lemma len_cons {A} (x : A) l : len (x :: l) = 1 + len l.
Proof. unfold len; cbn [length]; lia. Qed.
Lemma len_zero {A} (l : list A) : len l = 0 -> l = [].
Proof. destruct l; auto. rewrite len_cons. pose proof (len_nonneg l). lia. Qed.
Lemma len_firstn {A} n (l : list A) : len (firstn n l) = Z.min (Z.of_nat n) (len l).
Proof. unfold len; rewrite firstn_length; lia. Qed.
Lemma len_skipn {A} n (l : list A) : len (skipn n l) = Z.max 0 (len l - Z.of_nat n).
Proof. unfold len; rewrite skipn_length; lia. Qed.

Lemma byte_at_nth l i : 0 <= i -> byte_at l i = nth (Z.to_nat i) l 0.
Proof. intros; unfold byte_at. destruct (Z.ltb_spec i 0); [lia|auto]. Qed.
Lemma byte_at_over l i : len l <= i -> byte_at l i = 0.
Proof.
  intros H. pose proof (len_nonneg l). rewrite byte_at_nth by lia.
  apply nth_overflow. unfold len in H. lia.
Qed.
Lemma byte_at_app l r i : 0 <= i ->
  byte_at (l ++ r) i = if i <? len l then byte_at l i else byte_at r (i - len l).
Proof.
  intros H. rewrite byte_at_nth by lia. unfold len.
  destruct (Z.ltb_spec i (Z.of_nat (length l))).
  - rewrite app_nth1 by lia. now rewrite byte_at_nth by lia.
  - rewrite app_nth2 by lia. rewrite byte_at_nth by lia. f_equal. lia.
Qed.
Lemma byte_at_firstn l n i : 0 <= i < Z.of_nat n -> byte_at (firstn n l) i = byte_at l i.
Proof.
  intros H. rewrite !byte_at_nth by lia.
  revert l i H. induction n; intros; [lia|].
  destruct l; cbn [firstn]; [auto|].
  destruct (Z.to_nat i) eqn:E; cbn [nth]; [auto|].
  specialize (IHn l (i - 1)). replace (Z.to_nat (i - 1)) with n0 in IHn by lia.
  apply IHn. lia.
Qed.
Lemma byte_at_skipn l n i : 0 <= i -> byte_at (skipn n l) i = byte_at l (i + Z.of_nat n).
Proof.
  intros H. rewrite !byte_at_nth by lia.
  replace (Z.to_nat (i + Z.of_nat n)) with (n + Z.to_nat i)%nat by lia.
  revert l. induction n; intros; cbn [skipn]; [auto|].
  destruct l; [now destruct (Z.to_nat i)|]. cbn [Nat.add nth]. apply IHn.
Qed.
Lemma byte_at_repeat n i : byte_at (repeat 0 n) i = 0.
Proof.
  unfold byte_at. destruct (i <? 0); auto. apply nth_repeat.
Qed.
Lemma byte_at_nil i : byte_at [] i = 0.
Proof. unfold byte_at. destruct (i <? 0); auto. now destruct (Z.to_nat i). Qed.
Lemma byte_at_pad n l i : byte_at (pad_to n l) i = byte_at l i.
Proof.
  destruct (Z.ltb_spec i 0).
  - unfold byte_at. destruct (Z.ltb_spec i 0); [auto|lia].
  - unfold pad_to. rewrite byte_at_app by auto. destruct (Z.ltb_spec i (len l)); auto.
    rewrite byte_at_repeat. symmetry; now apply byte_at_over.
Qed.
Lemma len_pad n l : len (pad_to n l) = Z.max (Z.of_nat n) (len l).
Proof. unfold pad_to. rewrite len_app. unfold len. rewrite repeat_length. lia. Qed.

(** Two arrays with the same length and the same bytes are equal. *)
Lemma byte_ext a b : len a = len b -> (forall i, 0 <= i < len a -> byte_at a i = byte_at b i) -> a = b.
Proof.
  intros L H. apply (nth_ext a b 0 0).
  - unfold len in L; lia.
  - intros n Hn. specialize (H (Z.of_nat n)). rewrite !byte_at_nth in H by lia.
    rewrite Nat2Z.id in H. apply H. unfold len; lia.
Qed.

Lemma len_write_at c pos b : b <> [] -> len (write_at c pos b) = Z.max (len c) (Z.of_nat pos + len b).
Proof.
  intros H. unfold write_at. destruct b as [|x b]; [congruence|].
  set (b' := x :: b) in *. rewrite !len_app, len_firstn, len_pad, len_skipn.
  pose proof (len_nonneg c). pose proof (len_nonneg b'). unfold len in *. lia.
Qed.

Lemma write_at_stored c pos b : stored_at c (Z.of_nat pos) b (write_at c pos b).
Proof.
  destruct b as [|x b].
  - split; [auto|]. split; [congruence|]. intros i Hi. cbn [write_at].
    rewrite len_nil. destruct (Z.leb_spec (Z.of_nat pos) i), (Z.ltb_spec i (Z.of_nat pos + 0)); cbn [andb]; auto; lia.
  - split; [congruence|]. split; [intros; now apply len_write_at|].
    intros i Hi. unfold write_at. set (b' := x :: b) in *.
    rewrite byte_at_app by lia. rewrite len_firstn, len_pad.
    replace (Z.min (Z.of_nat pos) (Z.max (Z.of_nat pos) (len c))) with (Z.of_nat pos) by lia.
    destruct (Z.ltb_spec i (Z.of_nat pos)); destruct (Z.leb_spec (Z.of_nat pos) i); try lia; cbn [andb].
    + rewrite byte_at_firstn by lia. apply byte_at_pad.
    + rewrite byte_at_app by lia.
      destruct (Z.ltb_spec (i - Z.of_nat pos) (len b')); destruct (Z.ltb_spec i (Z.of_nat pos + len b')); try lia; auto.
      rewrite byte_at_skipn by lia. f_equal. unfold len. lia.
Qed.

(** [stored_at] and [resized] determine the result. *)
Lemma stored_at_fun c p b x y : stored_at c p b x -> stored_at c p b y -> x = y.
Proof.
  intros (Hx0 & Hx1 & Hx2) (Hy0 & Hy1 & Hy2).
  destruct b as [|z b]; [rewrite Hx0, Hy0; auto|].
  assert (N : z :: b <> []) by congruence.
  apply byte_ext; [rewrite Hx1, Hy1; auto|].
  intros i Hi. rewrite Hx2 by auto. rewrite Hy2; auto. rewrite Hy1, <- Hx1; auto.
Qed.
Lemma resized_fun c n x y : resized c n x -> resized c n y -> x = y.
Proof.
  intros (Lx & Hx) (Ly & Hy). apply byte_ext; [congruence|].
  intros i Hi. rewrite Hx, Hy; auto; lia.
Qed.

Lemma set_size_resized c n : 0 <= n -> resized c n (set_size c (Z.to_nat n)).
Proof.
  intros Hn. split.
  - unfold set_size. rewrite len_firstn, len_pad. lia.
  - intros i Hi. unfold set_size. rewrite byte_at_firstn by lia. apply byte_at_pad.
Qed.
Lemma resized_same c : resized c (len c) c.
Proof. split; auto. Qed.
Lemma set_size_0 c : set_size c 0 = [].
Proof. reflexivity. Qed.

Lemma write_at_nil_r c pos : write_at c pos [] = c.
Proof. reflexivity. Qed.

(** Storing at the end is concatenation. *)
Lemma write_at_end c b : write_at c (length c) b = c ++ b.
Proof.
  destruct b as [|x b]; [now rewrite app_nil_r|].
  unfold write_at, pad_to. rewrite Nat.sub_diag. cbn [repeat]. rewrite app_nil_r, firstn_all.
  rewrite skipn_all2 by (cbn [length]; lia). now rewrite app_nil_r.
Qed.

(** Two consecutive stores are one. *)
Lemma write_at_app c pos a b :
  write_at (write_at c pos a) (pos + length a) b = write_at c pos (a ++ b).
Proof.
  destruct a as [|x a]. { cbn [length app]. now rewrite Nat.add_0_r. }
  destruct b as [|y b]. { now rewrite app_nil_r. }
  set (a' := x :: a). set (b' := y :: b).
  pose proof (write_at_stored c pos a') as (_ & La & Ha).
  pose proof (write_at_stored (write_at c pos a') (pos + length a') b') as (_ & Lb & Hb).
  pose proof (write_at_stored c pos (a' ++ b')) as (_ & Lab & Hab).
  assert (Na : a' <> []) by (unfold a'; congruence).
  assert (Nb : b' <> []) by (unfold b'; congruence).
  assert (Nab : a' ++ b' <> []) by (unfold a'; cbn; congruence).
  assert (E : Z.of_nat (pos + length a') = Z.of_nat pos + len a') by (unfold len; lia).
  specialize (La Na). specialize (Lb Nb). specialize (Lab Nab). rewrite E in *. rewrite len_app in *.
  pose proof (len_nonneg b'). pose proof (len_nonneg a').
  apply byte_ext; [lia|].
  intros i Hi. rewrite Hb by auto. rewrite Hab by lia.
  destruct (Z.leb_spec (Z.of_nat pos + len a') i), (Z.ltb_spec i (Z.of_nat pos + len a' + len b'));
  destruct (Z.leb_spec (Z.of_nat pos) i), (Z.ltb_spec i (Z.of_nat pos + (len a' + len b'))); cbn [andb]; try lia.
  - rewrite byte_at_app by lia. destruct (Z.ltb_spec (i - Z.of_nat pos) (len a')); try lia. f_equal. lia.
  - destruct (Z.ltb_spec i (len (write_at c pos a'))); [|lia].
    rewrite Ha by lia.
    destruct (Z.leb_spec (Z.of_nat pos) i), (Z.ltb_spec i (Z.of_nat pos + len a')); cbn [andb]; try lia; auto.
  - rewrite byte_at_app by lia.
    destruct (Z.ltb_spec (i - Z.of_nat pos) (len a')); try lia.
    rewrite Ha by lia.
    destruct (Z.leb_spec (Z.of_nat pos) i), (Z.ltb_spec i (Z.of_nat pos + len a')); cbn [andb]; try lia; auto.
  - destruct (Z.ltb_spec i (len (write_at c pos a'))).
    + rewrite Ha by lia.
      destruct (Z.leb_spec (Z.of_nat pos) i), (Z.ltb_spec i (Z.of_nat pos + len a')); cbn [andb]; try lia; auto.
    + lia.
Qed.

(** Slices *)
Lemma firstn_skipn_slice c p n : slice_at c (Z.of_nat p) (firstn n (skipn p c)).
Proof.
  split.
  - rewrite len_firstn, len_skipn.
    destruct (firstn n (skipn p c)) eqn:E; auto. right.
    assert (0 < len (firstn n (skipn p c))) by (rewrite E, len_cons; pose proof (len_nonneg l); lia).
    rewrite len_firstn, len_skipn in H. lia.
  - intros i Hi. rewrite len_firstn, len_skipn in Hi.
    rewrite byte_at_firstn by lia. rewrite byte_at_skipn by lia. f_equal; lia.
Qed.

Lemma slice_at_eq c p d : 0 <= p -> slice_at c p d -> d = firstn (length d) (skipn (Z.to_nat p) c).
Proof.
  intros Hp (Hl & Hb).
  apply byte_ext.
  - rewrite len_firstn, len_skipn. destruct Hl as [-> | Hl]; [cbn; lia|]. unfold len in *. lia.
  - intros i Hi. rewrite Hb by auto. rewrite byte_at_firstn by (unfold len in Hi; lia).
    rewrite byte_at_skipn by lia. f_equal; lia.
Qed.

Lemma rest_from_skipn c p : 0 <= p -> rest_from c p (skipn (Z.to_nat p) c).
Proof.
  intros. split; [rewrite len_skipn; lia|].
  pose proof (firstn_skipn_slice c (Z.to_nat p) (length (skipn (Z.to_nat p) c))) as S.
  rewrite firstn_all in S. now rewrite Z2Nat.id in S by lia.
Qed.
Lemma rest_from_eq c p d : 0 <= p -> rest_from c p d -> d = skipn (Z.to_nat p) c.
Proof.
  intros Hp (L & S). rewrite (slice_at_eq c p d Hp S) at 1.
  apply firstn_all2. rewrite skipn_length. unfold len in L. lia.
Qed.

Lemma skipn_skipn {A} a b (l : list A) : skipn a (skipn b l) = skipn (b + a) l.
Proof.
  revert l. induction b; intros; cbn [skipn Nat.add]; auto.
  destruct l; auto. now rewrite skipn_nil.
Qed.
Lemma firstn_firstn_skipn {A} a b (l : list A) : firstn a l ++ firstn b (skipn a l) = firstn (a + b) l.
Proof.
  revert l. induction a; intros; cbn [firstn skipn Nat.add app]; auto.
  destruct l; cbn; [now rewrite firstn_nil|]. now rewrite IHa.
Qed.

Lemma slice_app c p a b : 0 <= p -> slice_at c p a -> slice_at c (p + len a) b -> slice_at c p (a ++ b).
Proof.
  intros Hp (La & Ha) (Lb & Hb). split.
  - rewrite len_app. destruct Lb as [-> | Lb]; [rewrite len_nil; destruct La as [-> | La]; auto|].
    + right; lia.
    + right; lia.
  - intros i Hi. rewrite len_app in Hi. rewrite byte_at_app by lia.
    destruct (Z.ltb_spec i (len a)); [apply Ha; lia|].
    rewrite Hb by lia. f_equal; lia.
Qed.
