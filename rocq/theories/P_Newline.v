(** Proofs about the newline decoder model. *)
From Coq Require Import ZArith List Bool Lia.
From Verif Require Import M_Base M_Newline S_Newline.
Import ListNotations.
Open Scope Z_scope.

(** Universal newline translation as a function, used inside the proofs. *)
Fixpoint univ (s : list Z) : list Z :=
  match s with
  | [] => []
  | x :: r => if x =? CR then LF :: (match r with y :: t => if y =? LF then univ t else univ r | [] => [] end)
              else x :: univ r
  end.

Lemma list_pair_ind (P : list Z -> Prop) :
  P [] -> (forall x, P [x]) -> (forall x y t, P t -> P (y :: t) -> P (x :: y :: t)) -> forall s, P s.
Proof.
  intros H0 H1 H2 s. assert (G : P s /\ forall x, P (x :: s)).
  { induction s as [|y t [IH1 IH2]]; [split; auto|]. split; auto. }
  exact (proj1 G).
Qed.

Lemma univ_crlf t : univ (CR :: LF :: t) = LF :: univ t.
Proof. reflexivity. Qed.
Lemma univ_cr t : (forall u, t <> LF :: u) -> univ (CR :: t) = LF :: univ t.
Proof.
  intros H. destruct t as [|y t]; [reflexivity|]. cbn [univ]. rewrite Z.eqb_refl.
  destruct (Z.eqb_spec y LF) as [->|N]; [exfalso; eapply H; reflexivity|reflexivity].
Qed.
Lemma univ_other x t : x <> CR -> univ (x :: t) = x :: univ t.
Proof. intros H. cbn [univ]. destruct (Z.eqb_spec x CR); [contradiction|reflexivity]. Qed.

Lemma univ_pieces s ps : pieces s ps -> univ s = flat_map translated ps.
Proof.
  induction 1 as [|p s ps O N _ IH]; [reflexivity|].
  destruct p; cbn [spelling translated flat_map app]; rewrite <- IH.
  - apply univ_crlf.
  - apply univ_cr. intros u. exact (N eq_refl u).
  - apply univ_other. discriminate.
  - apply univ_other. exact (proj1 O).
Qed.

Lemma pieces_exist s : exists ps, pieces s ps.
Proof.
  induction s as [|x|x y t [p1 H1] [p2 H2]] using list_pair_ind.
  - exists []. constructor.
  - destruct (Z.eq_dec x 13) as [->|N]; [|destruct (Z.eq_dec x 10) as [->|N']].
    + exists [PCr]. apply (ps_cons PCr []); [exact I|discriminate|constructor].
    + exists [PLf]. apply (ps_cons PLf []); [exact I|discriminate|constructor].
    + exists [PChar x]. apply (ps_cons (PChar x) []); [split; assumption|discriminate|constructor].
  - destruct (Z.eq_dec x 13) as [->|N]; [destruct (Z.eq_dec y 10) as [->|N']|destruct (Z.eq_dec x 10) as [->|N']].
    + exists (PCrLf :: p1). apply (ps_cons PCrLf t); [exact I|discriminate|assumption].
    + exists (PCr :: p2). apply (ps_cons PCr (y :: t)); [exact I| |assumption]. intros _ u E. injection E as -> _. now apply N'.
    + exists (PLf :: p2). apply (ps_cons PLf (y :: t)); [exact I|discriminate|assumption].
    + exists (PChar x :: p2). apply (ps_cons (PChar x) (y :: t)); [split; assumption|discriminate|assumption].
Qed.

(** ** Python's count and replace give the translation *)
Lemma eqb_pair x y : (x =? CR) && (y =? LF) = true <-> x = CR /\ y = LF.
Proof. rewrite andb_true_iff, !Z.eqb_eq. reflexivity. Qed.

Lemma counts_nonneg c s : 0 <= count_char c s.
Proof. induction s as [|x r IH]; cbn [count_char]; [lia|]. destruct (x =? c); lia. Qed.

Lemma count_crlf_cons2 x y t :
  count_crlf (x :: y :: t) = if (x =? CR) && (y =? LF) then 1 + count_crlf t else count_crlf (y :: t).
Proof. reflexivity. Qed.
Lemma replace_crlf_cons2 x y t :
  replace_crlf (x :: y :: t) = if (x =? CR) && (y =? LF) then LF :: replace_crlf t else x :: replace_crlf (y :: t).
Proof. reflexivity. Qed.

Lemma count_crlf_bounds s : 0 <= count_crlf s <= count_char CR s.
Proof.
  induction s as [|x|x y t IH1 IH2] using list_pair_ind; [cbn; lia| |].
  - cbn [count_crlf count_char]. destruct (x =? CR); lia.
  - rewrite count_crlf_cons2. destruct ((x =? CR) && (y =? LF)) eqn:E.
    + apply eqb_pair in E. destruct E as [-> ->]. cbn [count_char]. change (CR =? CR) with true. change (LF =? CR) with false. cbv iota. lia.
    + cbn [count_char] in *. destruct (x =? CR); lia.
Qed.

Lemma replace_both s : replace_char CR [LF] (replace_crlf s) = univ s.
Proof.
  unfold replace_char.
  induction s as [|x|x y t IH1 IH2] using list_pair_ind.
  - reflexivity.
  - cbn. destruct (x =? CR) eqn:E; reflexivity.
  - rewrite replace_crlf_cons2. destruct ((x =? CR) && (y =? LF)) eqn:E.
    + apply eqb_pair in E. destruct E as [-> ->]. cbn [flat_map univ]. change (LF =? CR) with false.
      change (CR =? CR) with true. change (LF =? LF) with true. cbn [app]. now rewrite IH1.
    + cbn [flat_map]. rewrite IH2. destruct (Z.eqb_spec x CR) as [->|N].
      * cbn [andb] in E. cbn [app]. symmetry. apply univ_cr. intros u H. injection H as -> _. discriminate E.
      * symmetry. now rewrite univ_other.
Qed.

Lemma replace_crlf_none s : count_crlf s = 0 -> replace_crlf s = s.
Proof.
  induction s as [|x|x y t IH1 IH2] using list_pair_ind; try reflexivity.
  rewrite count_crlf_cons2, replace_crlf_cons2. destruct ((x =? CR) && (y =? LF)) eqn:E; intros H.
  - pose proof (count_crlf_bounds t). lia.
  - now rewrite IH2.
Qed.

Lemma replace_char_none c u s : count_char c s = 0 -> replace_char c u s = s.
Proof.
  unfold replace_char. induction s as [|x r IH]; [reflexivity|]. cbn [count_char flat_map]. pose proof (counts_nonneg c r).
  destruct (x =? c); intros H0; [lia|]. cbn [app]. now rewrite IH.
Qed.

Lemma count_char_replace s : count_char CR (replace_crlf s) = count_char CR s - count_crlf s.
Proof.
  induction s as [|x|x y t IH1 IH2] using list_pair_ind; [reflexivity| |].
  - cbn [replace_crlf count_crlf]. symmetry. apply Z.sub_0_r.
  - rewrite replace_crlf_cons2, count_crlf_cons2. destruct ((x =? CR) && (y =? LF)) eqn:E.
    + apply eqb_pair in E. destruct E as [-> ->]. cbn [count_char]. rewrite IH1. change (CR =? CR) with true. change (LF =? CR) with false.
      cbv iota. lia.
    + cbn [count_char]. rewrite IH2. cbn [count_char]. destruct (x =? CR); lia.
Qed.

Lemma translate_univ s :
  (let o1 := if negb (count_crlf s =? 0) then replace_crlf s else s in
   if negb (count_char CR s - count_crlf s =? 0) then replace_char CR [LF] o1 else o1) = univ s.
Proof.
  cbv zeta. assert (E1 : (if negb (count_crlf s =? 0) then replace_crlf s else s) = replace_crlf s).
  { destruct (Z.eqb_spec (count_crlf s) 0) as [H|H]; cbn [negb]; [symmetry; now apply replace_crlf_none|reflexivity]. }
  rewrite E1. destruct (Z.eqb_spec (count_char CR s - count_crlf s) 0) as [H|H]; cbn [negb].
  - rewrite <- replace_both. symmetry. apply replace_char_none. now rewrite count_char_replace.
  - apply replace_both.
Qed.

(** ** Cutting *)
Lemma ends_cr_app s x : ends_cr (s ++ [x]) = (x =? CR).
Proof.
  induction s as [|y r IH]; [reflexivity|]. cbn [app ends_cr]. destruct (r ++ [x]) eqn:E; [destruct r; discriminate|]. exact IH.
Qed.
Lemma ends_cr_true s : ends_cr s = true -> s = removelast s ++ [CR].
Proof.
  destruct s as [|x r] using rev_ind; [discriminate|]. rewrite ends_cr_app, removelast_last. intros H.
  apply Z.eqb_eq in H. now subst.
Qed.

Lemma ends_cr_cons x r : r <> [] -> ends_cr (x :: r) = ends_cr r.
Proof. intros H. cbn [ends_cr]. destruct r; [contradiction|reflexivity]. Qed.

(** A cut that does not fall inside "\r\n". *)
Definition clean_cut (a b : list Z) : Prop := ends_cr a = true -> forall t, b <> LF :: t.

Lemma clean_cut_tail x y t b : clean_cut (x :: y :: t) b -> clean_cut (y :: t) b.
Proof. unfold clean_cut. rewrite (ends_cr_cons x (y :: t)) by discriminate. exact (fun H => H). Qed.
Lemma clean_cut_tail2 x y t b : clean_cut (x :: y :: t) b -> clean_cut t b.
Proof.
  intros H. destruct t as [|z t]; [intros E; discriminate E|]. exact (clean_cut_tail _ _ _ _ (clean_cut_tail _ _ _ _ H)).
Qed.

Lemma univ_app a b : clean_cut a b -> univ (a ++ b) = univ a ++ univ b.
Proof.
  induction a as [|x|x y t IH1 IH2] using list_pair_ind; intros E.
  - reflexivity.
  - destruct (Z.eq_dec x CR) as [->|N].
    + cbn [app]. rewrite univ_cr; [reflexivity|]. exact (E eq_refl).
    + cbn [app]. rewrite (univ_other x b) by assumption. rewrite (univ_other x []) by assumption. reflexivity.
  - specialize (IH1 (clean_cut_tail2 _ _ _ _ E)). specialize (IH2 (clean_cut_tail _ _ _ _ E)). cbn [app] in IH2 |- *.
    destruct (Z.eq_dec x CR) as [->|N].
    + destruct (Z.eq_dec y LF) as [->|N'].
      * rewrite !univ_crlf. cbn [app]. now rewrite IH1.
      * rewrite (univ_cr (y :: t ++ b)), (univ_cr (y :: t)) by (intros u H; injection H as -> _; now apply N').
        cbn [app]. now rewrite IH2.
    + rewrite (univ_other x (y :: t ++ b)), (univ_other x (y :: t)) by assumption. cbn [app]. now rewrite IH2.
Qed.

Lemma count_crlf_app a b : clean_cut a b -> count_crlf (a ++ b) = count_crlf a + count_crlf b.
Proof.
  induction a as [|x|x y t IH1 IH2] using list_pair_ind; intros E.
  - reflexivity.
  - cbn [app]. destruct b as [|z u]; [reflexivity|]. rewrite count_crlf_cons2.
    destruct ((x =? CR) && (z =? LF)) eqn:F; [|reflexivity]. apply eqb_pair in F. destruct F as [-> ->].
    exfalso. now apply (E eq_refl u).
  - specialize (IH1 (clean_cut_tail2 _ _ _ _ E)). specialize (IH2 (clean_cut_tail _ _ _ _ E)). cbn [app] in IH2 |- *.
    rewrite !count_crlf_cons2. destruct ((x =? CR) && (y =? LF)); lia.
Qed.

Lemma count_char_app c a b : count_char c (a ++ b) = count_char c a + count_char c b.
Proof. induction a as [|x r IH]; [reflexivity|]. cbn [app count_char]. rewrite IH. lia. Qed.

(** ** One call *)
(** What the decoder holds back. *)
Definition held (s : nlstate) : list Z := if nl_pending s then [CR] else [].

(** The raw text a call lets through, before translation. *)
Definition raw_out (c : list Z) (final : bool) (s : nlstate) : list Z :=
  let o := held s ++ c in if ends_cr o && negb final then removelast o else o.

Definition emit (translate : bool) (o : list Z) : list Z := if translate then univ o else o.

Definition note (o : list Z) (s : nlstate) (p : bool) : nlstate :=
  mkNl (nl_lf s || negb (count_char LF o - count_crlf o =? 0)) (nl_cr s || negb (count_char CR o - count_crlf o =? 0))
       (nl_crlf s || negb (count_crlf o =? 0)) p.

Lemma nl_decode_eq translate c final s :
  nl_decode translate c final s =
  (emit translate (raw_out c final s), note (raw_out c final s) s (negb final && ends_cr (held s ++ c))).
Proof.
  unfold nl_decode, raw_out, held, emit, note.
  destruct (nl_pending s) eqn:Ep; destruct final.
  - cbn [andb orb]. rewrite orb_true_r. cbn [negb andb app]. rewrite andb_false_r. cbn [negb andb].
    destruct translate; [rewrite translate_univ|]; reflexivity.
  - destruct c as [|x r].
    + cbn. destruct translate; reflexivity.
    + cbn [andb orb negb app]. rewrite !andb_true_r. destruct (ends_cr (CR :: x :: r)); destruct translate; rewrite ?translate_univ; reflexivity.
  - cbn [andb orb negb app]. rewrite !andb_false_r. cbn [negb andb].
    destruct translate; [rewrite translate_univ|]; reflexivity.
  - cbn [andb orb negb app]. rewrite !andb_true_r. destruct (ends_cr c); destruct translate; rewrite ?translate_univ; reflexivity.
Qed.

(** A non-final call holds back a last CR, and nothing else. *)
Lemma held_note o s p : held (note o s p) = if p then [CR] else [].
Proof. reflexivity. Qed.

Lemma raw_out_split c s :
  held s ++ c = raw_out c false s ++ held (note (raw_out c false s) s (ends_cr (held s ++ c))).
Proof.
  rewrite held_note. unfold raw_out. cbv zeta. cbn [negb]. rewrite andb_true_r.
  destruct (ends_cr (held s ++ c)) eqn:E; [now apply ends_cr_true|now rewrite app_nil_r].
Qed.

Lemma raw_out_clean c s r :
  clean_cut (raw_out c false s) (held (note (raw_out c false s) s (ends_cr (held s ++ c))) ++ r).
Proof.
  rewrite held_note. unfold raw_out. cbv zeta. cbn [negb]. rewrite andb_true_r.
  destruct (ends_cr (held s ++ c)) eqn:E; intros H t; [discriminate|]. rewrite E in H. discriminate H.
Qed.

Lemma raw_out_split3 c s r :
  held s ++ c ++ r = raw_out c false s ++ held (note (raw_out c false s) s (ends_cr (held s ++ c))) ++ r.
Proof. rewrite !app_assoc. f_equal. apply raw_out_split. Qed.

(** ** Many calls *)
Lemma nl_run_output translate chunks : forall s, chunks <> [] ->
  concat (fst (nl_run translate chunks s)) = emit translate (held s ++ concat chunks).
Proof.
  induction chunks as [|c r IH]; intros s H; [contradiction|]. destruct r as [|d r].
  - cbn [nl_run]. rewrite nl_decode_eq. cbn [fst concat]. rewrite !app_nil_r. unfold raw_out. rewrite andb_false_r. reflexivity.
  - remember (d :: r) as q eqn:Eq. assert (Hq : q <> []) by now subst. specialize (IH (note (raw_out c false s) s (ends_cr (held s ++ c))) Hq).
    replace (nl_run translate (c :: q) s) with
      (let '(o, s') := nl_decode translate c false s in let '(os, s'') := nl_run translate q s' in (o :: os, s'')) by now subst.
    rewrite nl_decode_eq. cbn [negb andb]. destruct (nl_run translate q _) as [os s''] eqn:E. cbn [fst] in *. cbn [concat]. rewrite IH.
    rewrite raw_out_split3.
    unfold emit. destruct translate; [|reflexivity]. symmetry. apply univ_app, raw_out_clean.
Qed.

Lemma nl_run_length translate chunks : forall s, length (fst (nl_run translate chunks s)) = length chunks.
Proof.
  induction chunks as [|c r IH]; intros s; [reflexivity|]. destruct r as [|d r].
  - cbn [nl_run]. rewrite nl_decode_eq. reflexivity.
  - remember (d :: r) as q eqn:Eq. 
    replace (nl_run translate (c :: q) s) with
      (let '(o, s') := nl_decode translate c false s in let '(os, s'') := nl_run translate q s' in (o :: os, s'')) by now subst.
    rewrite nl_decode_eq. specialize (IH (note (raw_out c false s) s (negb false && ends_cr (held s ++ c)))).
    destruct (nl_run translate q _) as [os s''] eqn:E. cbn [fst length] in *. now rewrite IH.
Qed.

Lemma held_cases s : held s = [] \/ held s = [CR].
Proof. unfold held. destruct (nl_pending s); auto. Qed.

(** Untranslated output is never cut inside "\r\n". *)
Lemma nl_run_clean chunks : forall s a b, fst (nl_run false chunks s) = a ++ b -> clean_cut (concat a) (concat b).
Proof.
  induction chunks as [|c r IH]; intros s a b H.
  - cbn in H. destruct a; [|discriminate]. intros E. discriminate E.
  - destruct r as [|d r].
    + cbn [nl_run] in H. rewrite nl_decode_eq in H. cbn [fst] in H. destruct a as [|x a]; [intros E; discriminate E|].
      injection H as _ H. symmetry in H. apply app_eq_nil in H. destruct H as [-> ->]. intros _ t. discriminate.
    + remember (d :: r) as q eqn:Eq. assert (Hq : q <> []) by now subst.
      replace (nl_run false (c :: q) s) with
        (let '(o, s') := nl_decode false c false s in let '(os, s'') := nl_run false q s' in (o :: os, s'')) in H by now subst.
      rewrite nl_decode_eq in H. cbn [negb andb emit] in H.
      pose proof (nl_run_output false q (note (raw_out c false s) s (ends_cr (held s ++ c))) Hq) as HO.
      specialize (IH (note (raw_out c false s) s (ends_cr (held s ++ c)))).
      pose proof (raw_out_clean c s (concat q)) as HC.
      destruct (nl_run false q _) as [os s''] eqn:E. cbn [fst] in *. cbn [emit] in HO.
      destruct a as [|x a]; [intros F; discriminate F|]. cbn [app] in H. injection H as Hx H. subst x os.
      rewrite <- HO in HC. rewrite concat_app in HC. specialize (IH a b eq_refl).
      cbn [concat]. unfold clean_cut. destruct (concat a) as [|z u] eqn:Ea.
      * rewrite app_nil_r. exact HC.
      * destruct (exists_last (l := z :: u)) as [v [w F]]; [discriminate|]. intros G. apply IH. rewrite F in *.
        rewrite app_assoc in G. rewrite ends_cr_app in *. exact G.
Qed.

(** ** Which newlines were seen *)
Definition all_seen (t : list Z) (s : nlstate) (s' : nlstate) : Prop :=
  nl_lf s' = nl_lf s || negb (count_char LF t - count_crlf t =? 0) /\
  nl_cr s' = nl_cr s || negb (count_char CR t - count_crlf t =? 0) /\
  nl_crlf s' = nl_crlf s || negb (count_crlf t =? 0).

Lemma count_lf_bound s : count_crlf s <= count_char LF s.
Proof.
  induction s as [|x|x y t IH1 IH2] using list_pair_ind; [cbn; lia| |].
  - cbn [count_crlf count_char]. destruct (x =? LF); lia.
  - rewrite count_crlf_cons2. destruct ((x =? CR) && (y =? LF)) eqn:E.
    + apply eqb_pair in E. destruct E as [-> ->]. cbn [count_char]. change (LF =? LF) with true. change (CR =? LF) with false. cbv iota. lia.
    + cbn [count_char] in *. destruct (x =? LF); lia.
Qed.

Lemma negb_sum x y : 0 <= x -> 0 <= y -> negb (x =? 0) || negb (y =? 0) = negb (x + y =? 0).
Proof. intros. destruct (Z.eqb_spec x 0), (Z.eqb_spec y 0), (Z.eqb_spec (x + y) 0); cbn; try reflexivity; lia. Qed.

Lemma all_seen_app a b s s1 s2 : clean_cut a b -> all_seen a s s1 -> all_seen b s1 s2 -> all_seen (a ++ b) s s2.
Proof.
  intros H (A1 & A2 & A3) (B1 & B2 & B3). unfold all_seen.
  rewrite !count_char_app, !(count_crlf_app a b H), B1, B2, B3, A1, A2, A3, <- !orb_assoc.
  pose proof (count_crlf_bounds a). pose proof (count_crlf_bounds b). pose proof (count_lf_bound a). pose proof (count_lf_bound b).
  rewrite !negb_sum by lia. repeat split; f_equal; f_equal; f_equal; lia.
Qed.

Lemma nl_run_seen translate chunks : forall s, chunks <> [] ->
  all_seen (held s ++ concat chunks) s (snd (nl_run translate chunks s)) /\ nl_pending (snd (nl_run translate chunks s)) = false.
Proof.
  induction chunks as [|c r IH]; intros s H; [contradiction|]. destruct r as [|d r].
  - cbn [nl_run]. rewrite nl_decode_eq. cbn [snd concat]. rewrite !app_nil_r. unfold raw_out. rewrite andb_false_r.
    split; [|reflexivity]. unfold all_seen, note. cbn [nl_lf nl_cr nl_crlf]. repeat split; reflexivity.
  - remember (d :: r) as q eqn:Eq. assert (Hq : q <> []) by now subst. specialize (IH (note (raw_out c false s) s (ends_cr (held s ++ c))) Hq).
    replace (nl_run translate (c :: q) s) with
      (let '(o, s') := nl_decode translate c false s in let '(os, s'') := nl_run translate q s' in (o :: os, s'')) by now subst.
    rewrite nl_decode_eq. cbn [negb andb]. destruct (nl_run translate q _) as [os s''] eqn:E. cbn [snd] in *. destruct IH as [IH1 IH2].
    split; [|assumption]. cbn [concat]. rewrite raw_out_split3.
    eapply all_seen_app; [apply raw_out_clean| |exact IH1]. unfold all_seen, note. cbn [nl_lf nl_cr nl_crlf]. repeat split; reflexivity.
Qed.

Lemma counts_pieces s ps : pieces s ps ->
  count_crlf s = Z.of_nat (count_occ piece_eq_dec ps PCrLf) /\
  count_char CR s - count_crlf s = Z.of_nat (count_occ piece_eq_dec ps PCr) /\
  count_char LF s - count_crlf s = Z.of_nat (count_occ piece_eq_dec ps PLf).
Proof.
  induction 1 as [|p s ps O N _ (I1 & I2 & I3)]; [repeat split; reflexivity|].
  assert (C : count_crlf (spelling p ++ s) = (if piece_eq_dec p PCrLf then 1 else 0) + count_crlf s).
  { destruct p; cbn [spelling app].
    - reflexivity.
    - change (13 :: s) with ([CR] ++ s). rewrite count_crlf_app; [reflexivity|]. intros _. exact (N eq_refl).
    - change (10 :: s) with ([LF] ++ s). rewrite count_crlf_app; [reflexivity|]. intros E; discriminate E.
    - change (c :: s) with ([c] ++ s). rewrite count_crlf_app; [|intros E; cbn in E; apply Z.eqb_eq in E; destruct O; contradiction].
      destruct (piece_eq_dec (PChar c) PCrLf); [discriminate|reflexivity]. }
  rewrite C. destruct p; cbn [spelling app count_occ count_char];
    repeat match goal with |- context [piece_eq_dec ?a ?b] => destruct (piece_eq_dec a b); try discriminate; try congruence end;
    change (13 =? CR) with true; change (13 =? LF) with false; change (10 =? CR) with false; change (10 =? LF) with true; cbn [spelling];
    try (destruct O as [O1 O2]; destruct (Z.eqb_spec c CR) as [E1|]; [exfalso; exact (O1 E1)|];
         destruct (Z.eqb_spec c LF) as [E2|]; [exfalso; exact (O2 E2)|]);
    cbv iota; repeat split; lia.
Qed.

Lemma seen_pieces s ps s' : pieces s ps -> all_seen s nl_init s' ->
  (nl_crlf s' = true <-> In PCrLf ps) /\ (nl_cr s' = true <-> In PCr ps) /\ (nl_lf s' = true <-> In PLf ps).
Proof.
  intros H (A & B & C). destruct (counts_pieces s ps H) as (I1 & I2 & I3). cbn [nl_lf nl_cr nl_crlf nl_init orb] in A, B, C.
  rewrite A, B, C, I2, I3, I1. rewrite !(count_occ_In piece_eq_dec).
  repeat split; intros G; try (apply negb_true_iff, Z.eqb_neq in G; lia); apply negb_true_iff, Z.eqb_neq; lia.
Qed.
