From Coq Require Import ZArith List Bool Ascii String Permutation Lia.
From Verif Require Import M_Base M_Modes S_Modes.
Import ListNotations.
Open Scope char_scope.

Lemma chr_mem_In c l : chr_mem c l = true <-> In c l.
Proof.
  unfold chr_mem. rewrite existsb_exists. split.
  - intros (x & Hin & He). apply Ascii.eqb_eq in He. now subst.
  - intros H. exists c. split; auto. apply Ascii.eqb_refl.
Qed.

Lemma chr_mem_not_In c l : chr_mem c l = false <-> ~ In c l.
Proof. rewrite <- chr_mem_In. destruct (chr_mem c l); split; congruence. Qed.

Lemma has_dup_NoDup l : has_dup l = false <-> NoDup l.
Proof.
  induction l as [|c t IH]; simpl.
  - split; auto. constructor.
  - rewrite orb_false_iff, chr_mem_not_In, IH. split.
    + intros [H1 H2]. now constructor.
    + intros H. inversion H; auto.
Qed.

Lemma forbidden_iff (m allowed : list ascii) :
  existsb (fun c => negb (chr_mem c allowed)) m = false
  <-> (forall c, In c m -> In c allowed).
Proof.
  split.
  - intros H c Hin. apply chr_mem_In.
    destruct (chr_mem c allowed) eqn:E; auto.
    assert (existsb (fun c => negb (chr_mem c allowed)) m = true) as X.
    { apply existsb_exists. exists c. rewrite E. auto. }
    congruence.
  - intros H. destruct (existsb _ m) eqn:E; auto.
    apply existsb_exists in E. destruct E as (c & Hin & Hc).
    apply H in Hin. apply chr_mem_In in Hin. rewrite Hin in Hc. discriminate.
Qed.

Lemma str_eqb_eq a b : str_eqb a b = true <-> a = b.
Proof.
  revert b; induction a as [|x a IH]; intros [|y b]; simpl; split; try congruence; auto.
  - rewrite andb_true_iff, IH. intros [H ->]. apply Ascii.eqb_eq in H. now subst.
  - intros H. inversion H; subst. rewrite Ascii.eqb_refl, andb_true_l. now apply IH.
Qed.

Lemma chr_lower_fix c : chr_lower c = c <-> is_upper c = false.
Proof. destruct c as [[] [] [] [] [] [] [] []]; vm_compute; split; congruence. Qed.

Lemma chr_upper_fix c : chr_upper c = c <-> is_lower c = false.
Proof. destruct c as [[] [] [] [] [] [] [] []]; vm_compute; split; congruence. Qed.

Lemma map_fix (f : ascii -> ascii) l : map f l = l <-> (forall c, In c l -> f c = c).
Proof.
  induction l as [|x l IH]; simpl; split; auto.
  - intros _ c [].
  - intros H c [->|Hin].
    + now injection H.
    + injection H as H1 H2. apply IH; auto.
  - intros H. rewrite (H x) by auto. f_equal. apply IH. auto.
Qed.

Definition cleaned (m : list ascii) := filter (fun c => negb (Ascii.eqb c "U")) m.

Lemma lower_test m :
  str_eqb (map chr_lower (cleaned m)) (cleaned m) = true
  <-> (forall c, In c m -> is_upper c = false \/ c = "U").
Proof.
  rewrite str_eqb_eq, map_fix. unfold cleaned. split.
  - intros H c Hin. destruct (Ascii.eqb c "U") eqn:E.
    + apply Ascii.eqb_eq in E; auto.
    + left. apply chr_lower_fix, H. apply filter_In. rewrite E. auto.
  - intros H c Hin. apply filter_In in Hin. destruct Hin as [Hin HU].
    apply chr_lower_fix. destruct (H c Hin) as [?| ->]; auto; discriminate HU.
Qed.

Lemma upper_test m :
  str_eqb (map chr_upper (cleaned m)) (cleaned m) = true
  <-> (forall c, In c m -> is_lower c = false).
Proof.
  rewrite str_eqb_eq, map_fix. unfold cleaned. split.
  - intros H c Hin. destruct (Ascii.eqb c "U") eqn:E.
    + apply Ascii.eqb_eq in E; subst; reflexivity.
    + apply chr_upper_fix, H. apply filter_In. rewrite E. auto.
  - intros H c Hin. apply filter_In in Hin. destruct Hin as [Hin _].
    apply chr_upper_fix; auto.
Qed.

(** The dispatch, in terms of the characters. *)
Lemma existsb_perm {A} (f : A -> bool) l l' : Permutation l l' -> existsb f l = existsb f l'.
Proof.
  intros H. apply eq_true_iff_eq. rewrite !existsb_exists. split; intros (x & Hi & Hx); exists x; split; auto.
  - eapply Permutation_in; eauto.
  - eapply Permutation_in; [apply Permutation_sym|]; eauto.
Qed.

Lemma has_dup_perm l l' : Permutation l l' -> has_dup l = has_dup l'.
Proof.
  intros H. destruct (has_dup l) eqn:E, (has_dup l') eqn:E'; auto.
  - apply has_dup_NoDup in E'. apply Permutation_sym in H.
    pose proof (Permutation_NoDup H E') as X. apply has_dup_NoDup in X. congruence.
  - apply has_dup_NoDup in E. pose proof (Permutation_NoDup H E) as X.
    apply has_dup_NoDup in X. congruence.
Qed.

Lemma chr_mem_perm c l l' : Permutation l l' -> chr_mem c l = chr_mem c l'.
Proof. apply existsb_perm. Qed.

Lemma bool_iff (a b : bool) : (a = true <-> b = true) -> a = b.
Proof. destruct a, b; intuition congruence. Qed.

Lemma parse_mode_perm py_u name m m' fileno handle closefd :
  Permutation m m' ->
  parse_mode py_u name m fileno handle closefd = parse_mode py_u name m' fileno handle closefd.
Proof.
  intros HP. unfold parse_mode. fold (cleaned m). fold (cleaned m').
  replace (str_eqb (map chr_lower (cleaned m')) (cleaned m'))
    with (str_eqb (map chr_lower (cleaned m)) (cleaned m)).
  2:{ apply bool_iff. rewrite !lower_test. split; intros H c Hc; apply H.
      - eapply Permutation_in; [apply Permutation_sym; eauto|auto].
      - eapply Permutation_in; eauto. }
  replace (str_eqb (map chr_upper (cleaned m')) (cleaned m'))
    with (str_eqb (map chr_upper (cleaned m)) (cleaned m)).
  2:{ apply bool_iff. rewrite !upper_test. split; intros H c Hc; apply H.
      - eapply Permutation_in; [apply Permutation_sym; eauto|auto].
      - eapply Permutation_in; eauto. }
  unfold parse_standard_args, parse_advanced_args.
  rewrite !(fun c => chr_mem_perm c _ _ HP), (has_dup_perm _ _ HP),
    !(fun f => existsb_perm f _ _ HP).
  replace (match m' with [] => true | _ => false end) with
          (match m with [] => true | _ => false end); [reflexivity|].
  destruct m, m'; auto.
  - apply Permutation_nil_cons in HP. destruct HP.
  - apply Permutation_sym, Permutation_nil_cons in HP. destruct HP.
Qed.

(** ** Acceptance *)

(** Opening a regular path name with no other option (the "plain" call
    rsopen(path, mode)). *)
Definition plain_open (py_u : bool) (p m : list ascii) : res (raw_kwargs * ext_kwargs) :=
  match rsopen_prelude py_u (NPath p) m None None true None true false false false false with
  | Err e => Err e
  | Ok (rk, ek) => match init_checks rk with Err e => Err e | Ok _ => Ok (rk, ek) end
  end.

Definition wish_of (rk : raw_kwargs) (ek : ext_kwargs) : wish :=
  mkWish (rk_read rk) (rk_write rk) (rk_append rk) (rk_must_create rk)
         (rk_must_not_create rk) (rk_synchronized rk) (rk_inheritable rk)
         (ek_truncate ek) (ek_binary ek).

Definition good_path (p : list ascii) : Prop := p <> [] /\ ~ In "000" p.

Definition lowerish (m : list ascii) := forall c, In c m -> is_upper c = false \/ c = "U".

Lemma std_allowed py_u m :
  existsb (fun c => negb (chr_mem c (STDLIB_OPEN_FLAGS py_u))) m = false
  <-> (forall c, In c m -> In c ["x"; "a"; "r"; "w"; "+"; "b"; "t"] \/ (c = "U" /\ py_u = true)).
Proof.
  rewrite forbidden_iff. unfold STDLIB_OPEN_FLAGS.
  split; intros H c Hc; specialize (H c Hc).
  - apply in_app_or in H. destruct H as [H|H]; auto. right.
    destruct py_u; simpl in H; intuition.
  - apply in_or_app. destruct H as [H|[-> ->]]; auto. right; simpl; auto.
Qed.

Lemma plain_path_checks p rd wr app mc mnc sy inh :
  good_path p ->
  init_checks (mkRaw (NPath p) rd wr app mc mnc sy inh None None true)
  = if negb rd && negb (wr || app) then Err EBadValue
    else if mc && mnc then Err EBadValue else Ok tt.
Proof.
  intros [Hne HN]. unfold init_checks; simpl.
  destruct p as [|a p]; [congruence|]. simpl path_truthy. cbn [b2n is_some].
  apply chr_mem_not_In in HN. change (chr_mem "000" (a :: p)) with (chr_mem "000" (a :: p)) in HN.
  simpl Nat.eqb. cbn [negb]. rewrite HN. reflexivity.
Qed.


(** Boolean form of the specification. *)
Definition std_okb (py_u : bool) (m : list ascii) : bool :=
  let i c := chr_mem c m in
  negb (has_dup m)
  && negb (existsb (fun c => negb (chr_mem c (STDLIB_OPEN_FLAGS py_u))) m)
  && (i "x" || (i "r" || (i "U" || (i "w" || i "a"))))
  && negb (i "x" && (i "r" || i "U")) && negb (i "x" && i "w") && negb (i "x" && i "a")
  && negb ((i "r" || i "U") && i "w") && negb ((i "r" || i "U") && i "a")
  && negb (i "w" && i "a") && negb (i "U" && i "+") && negb (i "b" && i "t").

Lemma bnot (b : bool) P : (b = true <-> P) -> (negb b = true <-> ~ P).
Proof. destruct b; simpl; intuition congruence. Qed.
Lemma band (a b : bool) P Q : (a = true <-> P) -> (b = true <-> Q) -> (a && b = true <-> P /\ Q).
Proof. rewrite andb_true_iff. tauto. Qed.
Lemma bor (a b : bool) P Q : (a = true <-> P) -> (b = true <-> Q) -> (a || b = true <-> P \/ Q).
Proof. rewrite orb_true_iff. tauto. Qed.

Lemma nodup_b m : negb (has_dup m) = true <-> NoDup m.
Proof. rewrite negb_true_iff. apply has_dup_NoDup. Qed.
Lemma allowed_b py_u m :
  negb (existsb (fun c => negb (chr_mem c (STDLIB_OPEN_FLAGS py_u))) m) = true
  <-> (forall c, In c m -> In c ["x"; "a"; "r"; "w"; "+"; "b"; "t"] \/ (c = "U" /\ py_u = true)).
Proof. rewrite negb_true_iff. apply std_allowed. Qed.
Lemma adv_allowed_b m :
  negb (existsb (fun c => negb (chr_mem c ADVANCED_OPEN_FLAGS)) m) = true
  <-> (forall c, In c m -> In c ADVANCED_OPEN_FLAGS).
Proof. rewrite negb_true_iff. apply forbidden_iff. Qed.

Ltac breflect :=
  repeat first [ apply nodup_b | apply allowed_b | apply adv_allowed_b
               | apply bnot | apply band | apply bor | apply chr_mem_In ].

Lemma std_okb_ok py_u m : std_okb py_u m = true <-> std_ok py_u m.
Proof.
  unfold std_ok.
  assert (forall A B C D E F G H I J K : Prop,
    (A /\ B /\ C /\ D /\ E /\ F /\ G /\ H /\ I /\ J /\ K)
    <-> ((((((((((A /\ B) /\ C) /\ D) /\ E) /\ F) /\ G) /\ H) /\ I) /\ J) /\ K)) as X
    by tauto.
  rewrite X. clear X. unfold std_okb. cbn zeta beta.
  breflect.
Qed.

Definition adv_okb (m : list ascii) : bool :=
  let i c := chr_mem c m in
  negb (has_dup m)
  && negb (existsb (fun c => negb (chr_mem c ADVANCED_OPEN_FLAGS)) m)
  && (i "R" || (i "W" || i "A"))
  && negb ((i "C" || i "-") && (i "N" || i "+"))
  && (negb (i "E") || (i "W" || (i "A" || (i "C" || i "-"))))
  && negb (i "B" && i "T").

Lemma adv_okb_ok m : adv_okb m = true <-> adv_ok m.
Proof.
  unfold adv_ok.
  assert (forall (A B C D E1 E2 : Prop) (b : bool) (F : Prop),
    (b = true <-> E1) ->
    ((A /\ B /\ C /\ D /\ (E1 -> E2) /\ F)
    <-> (((((A /\ B) /\ C) /\ D) /\ (~ E1 \/ E2)) /\ F))) as X.
  { intros A B C D E1 E2 b F Hb. destruct b; intuition congruence. }
  rewrite (X _ _ _ _ _ _ (chr_mem "E" m)) by apply chr_mem_In.
  clear X. unfold adv_okb. cbn zeta beta. breflect.
Qed.

Lemma std_eval py_u p m :
  good_path p -> lowerish m ->
  plain_open py_u p m =
  if std_okb py_u m then
    let i c := chr_mem c m in
    Ok (mkRaw (NPath p) (i "r" || i "U" || i "+") (i "x" || i "w" || i "a" || i "+")
              (i "a") (i "x") (i "r" || i "U") false false None None true,
        mkExt (i "w") (i "b") (i "t"))
  else Err EBadValue.
Proof.
  intros Hp Hl. apply (proj2 (lower_test _)) in Hl. unfold plain_open, rsopen_prelude, parse_mode.
  fold (cleaned m). rewrite Hl. clear Hl. cbn [negb andb].
  unfold parse_standard_args, std_okb. cbn zeta beta.
  destruct (existsb (fun c => negb (chr_mem c (STDLIB_OPEN_FLAGS py_u))) m).
  { rewrite orb_true_r. cbn [orb]. rewrite andb_false_r. reflexivity. }
  destruct (has_dup m).
  { rewrite orb_true_r. reflexivity. }
  rewrite !orb_false_r.
  destruct m as [|c0 m0]; [reflexivity|].
  generalize (c0 :: m0). clear c0 m0. intros m.
  generalize (chr_mem "x" m) (chr_mem "r" m) (chr_mem "U" m) (chr_mem "w" m)
    (chr_mem "a" m) (chr_mem "+" m) (chr_mem "b" m) (chr_mem "t" m).
  intros [] [] [] [] [] [] [] []; cbn -[init_checks]; try reflexivity;
    rewrite plain_path_checks by assumption; reflexivity.
Qed.

Lemma adv_eval py_u p m :
  good_path p -> ~ lowerish m ->
  plain_open py_u p m =
  if adv_okb m then
    let i c := chr_mem c m in
    Ok (mkRaw (NPath p) (i "R") (i "W" || i "A") (i "A") (i "C" || i "-") (i "N" || i "+")
              (i "S") (i "I") None None true,
        mkExt (i "E" && negb (i "C" || i "-")) (i "B") (i "T"))
  else Err EBadValue.
Proof.
  intros Hp Hl. unfold plain_open, rsopen_prelude, parse_mode. fold (cleaned m).
  destruct (str_eqb (map chr_lower (cleaned m)) (cleaned m)) eqn:El.
  { pose proof (proj1 (lower_test _) El). contradiction. }
  cbn [negb andb].
  destruct (str_eqb (map chr_upper (cleaned m)) (cleaned m)) eqn:Eu.
  - unfold parse_advanced_args, adv_okb. cbn zeta beta.
    destruct (existsb (fun c => negb (chr_mem c ADVANCED_OPEN_FLAGS)) m).
    { cbn [orb negb]. rewrite andb_false_r. reflexivity. }
    destruct (has_dup m); [reflexivity|]. cbn [orb negb].
    generalize (chr_mem "R" m) (chr_mem "W" m) (chr_mem "A" m) (chr_mem "C" m)
      (chr_mem "-" m) (chr_mem "N" m) (chr_mem "+" m) (chr_mem "E" m) (chr_mem "B" m)
      (chr_mem "T" m) (chr_mem "S" m) (chr_mem "I" m).
    intros [] [] [] [] [] [] [] [] [] [] S I; cbn -[init_checks]; try reflexivity;
    rewrite plain_path_checks by assumption; reflexivity.
  - destruct (adv_okb m) eqn:Ea; [|reflexivity]. exfalso.
    apply adv_okb_ok in Ea. destruct Ea as (_ & Hal & _).
    assert (str_eqb (map chr_upper (cleaned m)) (cleaned m) = true) as X; [|congruence].
    apply upper_test. intros c Hc. apply Hal in Hc. simpl in Hc.
    decompose [or] Hc; subst; try reflexivity. contradiction.
Qed.

Lemma std_ok_lowerish py_u m : std_ok py_u m -> lowerish m.
Proof.
  intros (_ & H & _) c Hc. destruct (H c Hc) as [Hi|[-> _]]; auto. simpl in Hi.
  left. decompose [or] Hi; subst; try reflexivity. contradiction.
Qed.

Lemma adv_ok_not_lowerish m : adv_ok m -> ~ lowerish m.
Proof.
  intros (_ & _ & H & _) Hl.
  destruct H as [H|[H|H]]; destruct (Hl _ H) as [E|E]; discriminate.
Qed.

Lemma lowerish_dec m : {lowerish m} + {~ lowerish m}.
Proof.
  destruct (str_eqb (map chr_lower (cleaned m)) (cleaned m)) eqn:E.
  - left. exact (proj1 (lower_test _) E).
  - right. intros H. apply (proj2 (lower_test _)) in H. congruence.
Qed.

Lemma accepts_iff py_u p m :
  good_path p ->
  (exists rk ek, plain_open py_u p m = Ok (rk, ek)) <-> (std_ok py_u m \/ adv_ok m).
Proof.
  intros Hp. destruct (lowerish_dec m) as [Hl|Hl].
  - rewrite std_eval by assumption. rewrite <- std_okb_ok.
    destruct (std_okb py_u m) eqn:E; split; auto.
    + eauto.
    + intros (rk & ek & H). discriminate.
    + intros [H|H]; [discriminate|]. apply adv_ok_not_lowerish in H. contradiction.
  - rewrite adv_eval by assumption. rewrite <- adv_okb_ok.
    destruct (adv_okb m) eqn:E; split; auto.
    + eauto.
    + intros (rk & ek & H). discriminate.
    + intros [H|H]; [|discriminate]. apply std_ok_lowerish in H. contradiction.
Qed.

Lemma rejects_with_badvalue py_u p m :
  good_path p -> ~ (std_ok py_u m \/ adv_ok m) -> plain_open py_u p m = Err EBadValue.
Proof.
  intros Hp Hno. destruct (lowerish_dec m) as [Hl|Hl].
  - rewrite std_eval by assumption. destruct (std_okb py_u m) eqn:E; auto.
    apply std_okb_ok in E. tauto.
  - rewrite adv_eval by assumption. destruct (adv_okb m) eqn:E; auto.
    apply adv_okb_ok in E. tauto.
Qed.

Ltac says_tac := unfold says; repeat rewrite ?orb_true_iff, ?andb_true_iff, ?chr_mem_In; tauto.

Lemma std_meaning py_u p m rk ek :
  good_path p -> std_ok py_u m -> plain_open py_u p m = Ok (rk, ek) ->
  std_means m (wish_of rk ek).
Proof.
  intros Hp Hok. rewrite std_eval by eauto using std_ok_lowerish.
  apply std_okb_ok in Hok. rewrite Hok. cbn zeta beta. intros H. injection H as <- <-.
  unfold std_means, wish_of. cbn -[In]. repeat split; intros;
   repeat rewrite ?orb_true_iff, ?chr_mem_In in *; tauto.
Qed.

Lemma adv_meaning py_u p m rk ek :
  good_path p -> adv_ok m -> plain_open py_u p m = Ok (rk, ek) ->
  adv_means m (wish_of rk ek).
Proof.
  intros Hp Hok. rewrite adv_eval by eauto using adv_ok_not_lowerish.
  apply adv_okb_ok in Hok. rewrite Hok. cbn zeta beta. intros H. injection H as <- <-.
  unfold adv_means, wish_of. cbn -[In].
  assert (forall b P, (b = true <-> P) -> (negb b = true <-> ~ P)) as Hn by (intros [] ?; simpl; intuition congruence).
  unfold says. rewrite andb_true_iff, (Hn _ (In "C" m \/ In "-" m)).
  all: repeat rewrite ?orb_true_iff, ?chr_mem_In; tauto.
Qed.

(** ** The equivalence table *)

Lemma same_chars_mem m l c : same_chars m l -> chr_mem c m = chr_mem c l.
Proof.
  intros [_ H]. apply bool_iff. rewrite !chr_mem_In. apply H.
Qed.

Lemma same_chars_ok py_u m l :
  NoDup l -> same_chars m l -> std_okb py_u m = std_okb py_u l /\ adv_okb m = adv_okb l.
Proof.
  intros Hl Hs. pose proof (fun c => same_chars_mem m l c Hs) as Hm.
  assert (has_dup m = has_dup l) as Hd.
  { destruct Hs as [Hn _]. apply has_dup_NoDup in Hn, Hl. congruence. }
  assert (forall f, existsb f m = existsb f l) as He.
  { intros f. apply bool_iff. rewrite !existsb_exists. destruct Hs as [_ Hs].
    split; intros (x & Hx & Hf); exists x; split; auto; now apply Hs. }
  unfold std_okb, adv_okb. cbn zeta beta. rewrite !Hm, Hd, !He. auto.
Qed.

Lemma same_chars_open py_u p m l :
  good_path p -> NoDup l -> same_chars m l -> plain_open py_u p m = plain_open py_u p l.
Proof.
  intros Hp Hl Hs. pose proof (same_chars_ok py_u m l Hl Hs) as [E1 E2].
  pose proof (fun c => same_chars_mem m l c Hs) as Hm.
  destruct (lowerish_dec l) as [H|H].
  - rewrite !std_eval; auto.
    + rewrite E1. cbn zeta beta. rewrite !Hm. reflexivity.
    + intros c Hc. apply H. now apply Hs.
  - rewrite !adv_eval; auto.
    + rewrite E2. cbn zeta beta. rewrite !Hm. reflexivity.
    + intros X. apply H. intros c Hc. apply X. now apply Hs.
Qed.

Lemma good_path_a : good_path ["a"].
Proof. split; [discriminate|]. simpl. intros [H|[]]. discriminate. Qed.

Definition retarget (p : list ascii) (x : res (raw_kwargs * ext_kwargs)) : res (raw_kwargs * ext_kwargs) :=
  match x with
  | Ok (rk, ek) => Ok (mkRaw (NPath p) (rk_read rk) (rk_write rk) (rk_append rk)
      (rk_must_create rk) (rk_must_not_create rk) (rk_synchronized rk) (rk_inheritable rk)
      (rk_fileno rk) (rk_handle rk) (rk_closefd rk), ek)
  | Err e => Err e
  end.

Lemma plain_open_path py_u p m : good_path p -> plain_open py_u p m = retarget p (plain_open py_u ["a"] m).
Proof.
  intros Hp. destruct (lowerish_dec m) as [H|H].
  - rewrite !std_eval; auto using good_path_a. destruct (std_okb py_u m); reflexivity.
  - rewrite !adv_eval; auto using good_path_a. destruct (adv_okb m); reflexivity.
Qed.

Lemma table_equiv py_u p std adv sb ab m m' :
  good_path p ->
  In (std, adv) equivalence_table -> In (sb, ab) suffixes ->
  same_chars m (std ++ sb) -> same_chars m' (adv ++ ab) ->
  exists r, plain_open py_u p m = Ok r /\ plain_open py_u p m' = Ok r.
Proof.
  intros Hp Ht Hsf Hm Hm'.
  assert (NoDup (std ++ sb) /\ NoDup (adv ++ ab)) as [N1 N2].
  { clear -Ht Hsf. unfold equivalence_table, suffixes in *. cbn [In] in *.
    decompose [or] Ht; decompose [or] Hsf; try contradiction;
    repeat match goal with H : (_, _) = (_, _) |- _ => injection H as <- <- end;
    cbn [app]; split; apply has_dup_NoDup; reflexivity. }
  rewrite (same_chars_open _ _ _ _ Hp N1 Hm), (same_chars_open _ _ _ _ Hp N2 Hm').
  rewrite (plain_open_path _ _ (std ++ sb)), (plain_open_path _ _ (adv ++ ab)) by assumption.
  clear -Ht Hsf. unfold equivalence_table, suffixes in *. cbn [In] in *.
    decompose [or] Ht; decompose [or] Hsf; try contradiction;
    repeat match goal with H : (_, _) = (_, _) |- _ => injection H as <- <- end;
    cbn [app]; destruct py_u; eexists; split; reflexivity.
Qed.

(** ** Agreement with the stdlib *)
Lemma stdlib_agree p m :
  good_path p -> lowerish m ->
  match pyio_open_mode m with
  | Ok (fl, b) =>
      exists rk ek, plain_open false p m = Ok (rk, ek)
        /\ of_rd (unix_open_flags rk) = of_rd fl
        /\ of_wr (unix_open_flags rk) = of_wr fl
        /\ of_append (unix_open_flags rk) = of_append fl
        /\ of_creat (unix_open_flags rk) = of_creat fl
        /\ of_excl (unix_open_flags rk) = of_excl fl
        /\ ek_truncate ek = of_trunc fl
        /\ of_trunc (unix_open_flags rk) = false
        /\ ek_binary ek = b
  | Err _ => plain_open false p m = Err EBadValue
  end.
Proof.
  intros Hp Hl. rewrite std_eval by assumption. unfold pyio_open_mode, std_okb. cbn zeta beta.
  assert (existsb (fun c => negb (chr_mem c (STDLIB_OPEN_FLAGS false))) m
          = existsb (fun c => negb (chr_mem c ["a"; "x"; "r"; "w"; "b"; "+"; "t"])) m) as ->.
  { clear. induction m as [|c m IH]; auto. cbn -[chr_mem STDLIB_OPEN_FLAGS]. rewrite IH. f_equal. f_equal.
    apply bool_iff. rewrite !chr_mem_In. cbn. tauto. }
  destruct (existsb (fun c => negb (chr_mem c ["a"; "x"; "r"; "w"; "b"; "+"; "t"])) m) eqn:Eal.
  { cbn [orb negb]. rewrite andb_false_r. reflexivity. }
  destruct (has_dup m); [reflexivity|]. cbn [orb negb].
  assert (chr_mem "U" m = false) as ->.
  { apply chr_mem_not_In. intros HU. pose proof (proj1 (forbidden_iff _ _) Eal _ HU) as X.
    simpl in X. decompose [or] X; discriminate || contradiction. }
  generalize (chr_mem "x" m) (chr_mem "r" m) (chr_mem "w" m)
    (chr_mem "a" m) (chr_mem "+" m) (chr_mem "b" m) (chr_mem "t" m).
  intros [] [] [] [] [] [] []; cbn; try reflexivity; eexists; eexists; repeat split.
Qed.

(** ** Wrapping a descriptor disables erasure (when it is not 0) *)
Lemma wrap_no_truncate py_u name mode fileno handle closefd op ts mx enc errs nl rk ek :
  rsopen_prelude py_u name mode fileno handle closefd op ts mx enc errs nl = Ok (rk, ek) ->
  (exists f, (rk_fileno rk = Some f \/ rk_handle rk = Some f) /\ f <> 0%Z) ->
  ek_truncate ek = false.
Proof.
  unfold rsopen_prelude. intros H (f & Hf & Hnz).
  destruct (negb ts && mx); [discriminate|].
  destruct (parse_mode py_u name mode fileno handle closefd) as [[rk0 ek0]|e]; [|discriminate].
  match type of H with match ?x with _ => _ end = _ => destruct x as [rk1|e1] eqn:E1; [|discriminate] end.
  repeat match type of H with (if ?x then _ else _) = _ => destruct x; [discriminate|] end.
  injection H as <- <-. cbn. unfold truthy.
  assert (Z.eqb f 0 = false) as Z0 by now apply Z.eqb_neq.
  destruct (ek_truncate ek0) eqn:Et; [|reflexivity].
  destruct Hf as [-> | ->]; rewrite Z0; cbn [negb orb andb]; try reflexivity.
  rewrite orb_true_r. reflexivity.
Qed.
