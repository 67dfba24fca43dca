(** Lines: the search for line endings, readline() and iteration. *)
From Coq Require Import ZArith List Bool Lia.
From Verif Require Import M_Base M_Registry M_World M_Raw M_Buffered M_Newline M_Text S_Bytes S_Raw S_Buffered S_Newline S_Text
  P_Bytes P_Raw P_Buffered P_BufOps P_Newline P_Decode P_TextBase P_TextRead.
Import ListNotations.
Open Scope Z_scope.

(** * Searching *)
Lemma find_char_some x s n : find_char x s = Some n -> exists a r, s = a ++ x :: r /\ length a = n /\ ~ In x a.
Proof.
  revert n. induction s as [|y s IH]; intros n H; [discriminate H|]. cbn in H. destruct (Z.eqb_spec y x) as [->|N].
  - injection H as <-. exists [], s. auto.
  - destruct (find_char x s) as [m|] eqn:E; [|discriminate H]. injection H as <-.
    destruct (IH m eq_refl) as (a & r & -> & <- & Na). exists (y :: a), r. split; [reflexivity|]. split; [reflexivity|].
    intros [->|I0]; [congruence|auto].
Qed.
Lemma find_char_none x s : find_char x s = None -> ~ In x s.
Proof.
  induction s as [|y s IH]; intros H; [auto|]. cbn in H. destruct (Z.eqb_spec y x) as [->|N]; [discriminate H|].
  destruct (find_char x s); [discriminate H|]. intros [->|I0]; [congruence|now apply IH].
Qed.
Lemma find_from_some x s k n : find_from x s k = Some n -> ~ In x (firstn k s) -> (k <= length s)%nat ->
  exists a r, s = a ++ x :: r /\ length a = n /\ ~ In x a /\ (k <= n)%nat.
Proof.
  unfold find_from. destruct (find_char x (skipn k s)) as [m|] eqn:E; [|discriminate]. intros H N L. injection H as <-.
  destruct (find_char_some _ _ _ E) as (a & r & Es & <- & Na). exists (firstn k s ++ a), r.
  split; [rewrite <- app_assoc, <- Es; symmetry; apply firstn_skipn|]. split; [rewrite app_length, firstn_length; lia|].
  split; [rewrite in_app_iff; tauto|lia].
Qed.
Lemma find_from_none x s k : find_from x s k = None -> ~ In x (firstn k s) -> ~ In x s.
Proof.
  unfold find_from. destruct (find_char x (skipn k s)) as [m|] eqn:E; [discriminate|]. intros _ N. apply find_char_none in E.
  rewrite <- (firstn_skipn k s), in_app_iff. tauto.
Qed.
Lemma starts_with_spec p s : starts_with p s = true <-> exists r, s = p ++ r.
Proof.
  revert s. induction p as [|x p IH]; intros s; cbn.
  - split; eauto.
  - destruct s as [|y s]; [split; [discriminate|intros [r H]; discriminate H]|].
    rewrite andb_true_iff, Z.eqb_eq, IH. split.
    + intros [-> [r ->]]. exists r. reflexivity.
    + intros [r H]. injection H as -> ->. split; eauto.
Qed.
Lemma find_sub_some p s n : find_sub p s = Some n -> exists a r, s = a ++ p ++ r /\ length a = n
  /\ forall a' r', s = a' ++ p ++ r' -> (length a <= length a')%nat.
Proof.
  revert n. induction s as [|y s IH]; intros n H; cbn [find_sub] in H.
  - destruct (starts_with p []) eqn:E; [|discriminate H]. injection H as <-. apply starts_with_spec in E as [r E]. exists [], r. cbn. repeat split; auto; lia.
  - destruct (starts_with p (y :: s)) eqn:E.
    + injection H as <-. apply starts_with_spec in E as [r E]. exists [], r. cbn. repeat split; auto; lia.
    + destruct (find_sub p s) as [m|]; [|discriminate H]. injection H as <-. destruct (IH m eq_refl) as (a & r & -> & <- & Hm).
      exists (y :: a), r. split; [reflexivity|]. split; [reflexivity|]. intros [|z a'] r' E'.
      * exfalso. cbn [app] in E'. assert (starts_with p (y :: a ++ p ++ r) = true); [apply starts_with_spec; eauto|congruence].
      * injection E' as -> E'. cbn [length]. specialize (Hm _ _ E'). lia.
Qed.
Lemma find_sub_none p s : find_sub p s = None -> forall a r, s = a ++ p ++ r -> False.
Proof.
  induction s as [|y s IH]; intros H a r E; cbn [find_sub] in H.
  - destruct (starts_with p []) eqn:E1; [discriminate H|]. destruct a; [|discriminate E]. cbn in E.
    assert (starts_with p [] = true); [apply starts_with_spec; eauto|congruence].
  - destruct (starts_with p (y :: s)) eqn:E1; [discriminate H|]. destruct (find_sub p s); [discriminate H|].
    destruct a as [|z a].
    + assert (starts_with p (y :: s) = true); [apply starts_with_spec; eauto|congruence].
    + injection E as -> E. eapply IH; eauto.
Qed.

(** ** Positions of a sub-list *)
Lemma app_prefix {A} (a b c d : list A) : a ++ b = c ++ d -> (length a <= length c)%nat -> exists e, c = a ++ e /\ b = e ++ d.
Proof.
  revert c. induction a as [|x a IH]; intros c H L; [exists c; auto|].
  destruct c as [|y c]; [cbn in L; lia|]. injection H as -> H. destruct (IH c H) as (e & -> & ->); [cbn in L; lia|]. exists e. auto.
Qed.
(** An occurrence of [e] in [l ++ r] that ends inside [l]. *)
Lemma occ_inside {A} (l r a e r' : list A) : l ++ r = a ++ e ++ r' -> (length a + length e <= length l)%nat -> exists r2, l = a ++ e ++ r2.
Proof.
  intros H L. rewrite app_assoc in H. symmetry in H. destruct (app_prefix _ _ _ _ H) as (x & E & _); [rewrite app_length; lia|].
  exists x. rewrite E. now rewrite <- app_assoc.
Qed.

Definition no_ending (nl : nlarg) (s : list Z) : Prop := forall a e r, s = a ++ e ++ r -> ending nl e -> False.

Lemma ending_nonempty nl e : ending nl e -> (1 <= length e <= 2)%nat.
Proof. destruct nl; cbn; [intros ->|intros [->|[->| ->]]|intros ->|intros ->|intros ->]; cbn; lia. Qed.

Lemma no_ending_firstn nl s k : no_ending nl s -> no_ending nl (firstn k s).
Proof.
  intros H a e r E He. apply (H a e (r ++ skipn k s)); [|exact He]. rewrite <- (firstn_skipn k s) at 1. rewrite E. now rewrite <- !app_assoc.
Qed.
Lemma no_ending_char nl x s : ending nl [x] -> no_ending nl s -> ~ In x s.
Proof. intros He H I0. destruct (in_split _ _ I0) as (a & r & E). exact (H a [x] r E He). Qed.

Lemma first_line_exists nl s : exists l, first_line nl s l.
Proof.
  assert (D : forall e, ending nl e \/ ~ ending nl e).
  { intros e. destruct (list_eq_dec Z.eq_dec e [10]) as [->|N1]; [|destruct (list_eq_dec Z.eq_dec e [13]) as [->|N2]; [|destruct (list_eq_dec Z.eq_dec e [13;10]) as [->|N3]]].
    - destruct nl; cbn; try (left; reflexivity); try (left; left; reflexivity); right; discriminate.
    - destruct nl; cbn; try (left; reflexivity); try (left; right; left; reflexivity); right; discriminate.
    - destruct nl; cbn; try (left; reflexivity); try (left; right; right; reflexivity); right; discriminate.
    - right. intros H. destruct nl; cbn in H; try congruence. destruct H as [H|[H|H]]; congruence. }
  (* occurrences of an ending at the head *)
  assert (Hd : forall s, (exists e r, s = e ++ r /\ ending nl e /\ forall e' r', s = e' ++ r' -> ending nl e' -> (length e' <= length e)%nat)
                    \/ (forall e r, s = e ++ r -> ending nl e -> False)).
  { clear s. intros s.
    assert (A : forall n, (exists e r, s = e ++ r /\ length e = n /\ ending nl e) \/ (forall e r, s = e ++ r -> length e = n -> ending nl e -> False)).
    { intros n. destruct (Nat.le_gt_cases n (length s)) as [L|L].
      - destruct (D (firstn n s)) as [Y|N].
        + left. exists (firstn n s), (skipn n s). rewrite firstn_skipn, firstn_length. repeat split; auto. lia.
        + right. intros e r -> <- He. rewrite firstn_app, firstn_all, Nat.sub_diag in N. cbn in N. rewrite app_nil_r in N. auto.
      - right. intros e r -> <- _. rewrite app_length in L. lia. }
    destruct (A 2%nat) as [(e & r & E & L & He)|N2].
    - left. exists e, r. split; [exact E|]. split; [exact He|]. intros e' r' _ He'. pose proof (ending_nonempty _ _ He'). lia.
    - destruct (A 1%nat) as [(e & r & E & L & He)|N1].
      + left. exists e, r. split; [exact E|]. split; [exact He|]. intros e' r' E' He'. pose proof (ending_nonempty _ _ He').
        assert (length e' = 2 \/ length e' = 1)%nat as [X|X] by lia; [|lia]. exfalso. eapply N2; eauto.
      + right. intros e r E He. pose proof (ending_nonempty _ _ He). assert (length e = 2 \/ length e = 1)%nat as [X|X] by lia; eauto. }
  clear D. induction s as [|x s IH].
  - exists []. right. split; [reflexivity|]. intros a e r E He. apply ending_nonempty in He. destruct a, e; cbn in *; try discriminate; lia.
  - destruct (Hd (x :: s)) as [(e & r & E & He & Hm)|N].
    + exists e. left. exists [], e, r. cbn [app]. split; [exact E|]. split; [reflexivity|]. split; [exact He|]. split; [intros; cbn; lia|].
      intros e' r' E' He'. eapply Hm; eauto.
    + destruct IH as [l [(pre & e & r & -> & -> & He & H1 & H2)|[-> Hn]]].
      * exists (x :: pre ++ e). left. exists (x :: pre), e, r. split; [reflexivity|]. split; [reflexivity|]. split; [exact He|]. split.
        -- intros [|y a] e' r' E' He'; [exfalso; exact (N e' r' E' He')|]. cbn [app] in E'; injection E' as -> E'. cbn [length]. specialize (H1 _ _ _ E' He'). lia.
        -- intros e' r' E' He'. cbn [app] in E'; injection E' as E'. eapply H2; eauto.
      * exists (x :: s). right. split; [reflexivity|]. intros [|y a] e' r' E' He'; [exact (N e' r' E' He')|]. cbn [app] in E'; injection E' as -> E'. eapply Hn; eauto.
Qed.

Lemma first_line_prefix nl s l : first_line nl s l -> exists r, s = l ++ r.
Proof.
  intros [(pre & e & r & -> & -> & _)|[-> _]]; [exists r; now rewrite <- app_assoc|exists []; now rewrite app_nil_r].
Qed.
Lemma first_line_unique nl s l l' : first_line nl s l -> first_line nl s l' -> l = l'.
Proof.
  intros [(pre & e & r & E & -> & He & H1 & H2)|[-> N]] [(pre' & e' & r' & E' & -> & He' & H1' & H2')|[-> N']]; try reflexivity.
  - pose proof (H1 _ _ _ E' He') as A. pose proof (H1' _ _ _ E He) as B.
    assert (X : pre ++ e ++ r = pre' ++ e' ++ r') by congruence. destruct (app_same_len _ _ _ _ X) as [<- Y]; [lia|].
    pose proof (H2 _ _ E' He') as A2. pose proof (H2' _ _ E He) as B2. destruct (app_same_len _ _ _ _ Y) as [<- _]; [lia|reflexivity].
  - exfalso. eapply N'; eauto.
  - exfalso. eapply N; eauto.
Qed.
Lemma first_line_nonempty nl s l : first_line nl s l -> l = [] -> s = [].
Proof.
  intros [(pre & e & r & -> & -> & He & _)|[-> _]]; [|auto]. intros H. apply ending_nonempty in He. destruct pre, e; cbn in *; try discriminate; lia.
Qed.
(** The first line reaches beyond a prefix without line ending. *)
Lemma first_line_beyond nl line r l : no_ending nl line -> first_line nl (line ++ r) l -> exists l', l = line ++ l'.
Proof.
  intros N [(pre & e & r' & E & -> & He & _)|[-> _]]; [|eauto].
  destruct (Nat.le_gt_cases (length pre + length e) (length line)) as [L|L].
  - destruct (occ_inside _ _ _ _ _ E L) as [r2 E2]. exfalso. eapply N; eauto.
  - rewrite app_assoc in E. destruct (app_prefix _ _ _ _ E) as (x & -> & _); [rewrite app_length; lia|]. eauto.
Qed.

Section Lines.
  Variable c : tconf.
  Let nl := tc_newline c.

  Lemma single_first x pre r1 : (forall e, ending nl e <-> e = [x]) -> ~ In x pre -> first_line nl (pre ++ x :: r1) (pre ++ [x]).
  Proof.
    intros He N. left. exists pre, [x], r1. split; [reflexivity|]. split; [reflexivity|]. split; [now apply He|]. split.
    - intros a e' r' E He'. apply He in He' as ->. destruct (Nat.le_gt_cases (length pre) (length a)) as [L|L]; [exact L|]. exfalso.
      symmetry in E. destruct (occ_inside pre (x :: r1) a [x] r') as [r2 E2]; [auto|cbn; lia|]. apply N. rewrite E2, in_app_iff. right. now left.
    - intros e' r' _ He'. apply He in He' as ->. apply le_n.
  Qed.

  Lemma find_end_some line start r1 e : find_end c line start = Some e -> (start <= length line)%nat -> no_ending nl (firstn start line) ->
    clean c line r1 -> first_line nl (line ++ r1) (firstn e line) /\ (start <= e <= length line)%nat.
  Proof.
    intros H Ls N Cl.
    assert (single : forall x, (forall e, ending nl e <-> e = [x]) -> forall n, find_from x line start = Some n ->
              first_line nl (line ++ r1) (firstn (n + 1) line) /\ (start <= n + 1 <= length line)%nat).
    { intros x He n Hn. destruct (find_from_some _ _ _ _ Hn) as (a & r & El & <- & Na & Lk); [apply (no_ending_char nl); [now apply He|exact N]|exact Ls|].
      rewrite El. rewrite <- app_assoc. cbn [app]. replace (firstn (length a + 1) (a ++ x :: r)) with (a ++ [x]).
      - split; [now apply single_first|]. rewrite app_length. cbn [length]. lia.
      - rewrite firstn_app_2. reflexivity. }
    assert (sub : forall s, (forall e, ending nl e <-> e = s) -> (1 <= length s)%nat -> forall n, find_sub s line = Some n ->
              first_line nl (line ++ r1) (firstn (n + length s) line) /\ (start <= n + length s <= length line)%nat).
    { intros s He Hl n Hn. destruct (find_sub_some _ _ _ Hn) as (a & r & El & <- & Hm). split.
      - left. exists a, s, (r ++ r1). rewrite El at 1. split; [now rewrite <- !app_assoc|]. split.
        + rewrite El, firstn_app_2. f_equal. rewrite firstn_app, firstn_all, Nat.sub_diag. cbn. now rewrite app_nil_r.
        + split; [now apply He|]. split.
          * intros a' e' r' E He'. apply He in He' as ->. destruct (Nat.le_gt_cases (length a' + length s) (length line)) as [L|L].
            -- destruct (occ_inside _ _ _ _ _ E L) as [r2 E2]. eapply Hm; eauto.
            -- rewrite El, !app_length in L. lia.
          * intros e' r' _ He'. apply He in He' as ->. apply le_n.
      - split; [|rewrite El, !app_length; lia].
        destruct (Nat.le_gt_cases start (length a + length s)) as [L|L]; [exact L|]. exfalso.
        destruct (occ_inside (firstn start line) (skipn start line) a s r) as [r2 E2]; [rewrite firstn_skipn; exact El|rewrite firstn_length; lia|].
        eapply N; [exact E2|now apply He]. }
    unfold find_end in H. fold nl in H. destruct nl eqn:Enl.
    - destruct (find_from LF line start) as [n|] eqn:E; [|discriminate H]. injection H as <-. apply (single LF); [intros; reflexivity|exact E].
    - (* universal, not translated *)
      assert (Nc : ~ In CR (firstn start line)) by (apply (no_ending_char NlEmpty); cbn; auto).
      assert (Nf : ~ In LF (firstn start line)) by (apply (no_ending_char NlEmpty); cbn; auto).
      assert (Cl' : clean_cut line r1) by (apply Cl; unfold readuniversal, readtranslate; fold nl; rewrite Enl; reflexivity).
      (* a CR, and a LF if it follows *)
      assert (Main : forall a x r, line = a ++ x :: r -> ~ In CR a -> ~ In LF a -> (x = CR \/ x = LF) -> (start <= length a)%nat ->
                (x = CR -> forall r', r <> LF :: r') ->
                first_line NlEmpty (line ++ r1) (firstn (length a + 1) line) /\ (start <= length a + 1 <= length line)%nat).
      { intros a x r El N1 N2 Hx La Hr. split; [|rewrite El, app_length; cbn [length]; lia].
        left. exists a, [x], (r ++ r1). rewrite El at 1. split; [now rewrite <- app_assoc|]. split; [rewrite El, firstn_app_2; reflexivity|].
        split; [cbn; destruct Hx as [-> | ->]; auto|]. split.
        - intros a' e' r' E He'. destruct (Nat.le_gt_cases (length a) (length a')) as [L|L]; [exact L|]. exfalso.
          assert (exists y e2, e' = y :: e2 /\ (y = CR \/ y = LF)) as (y & e2 & -> & Hy).
          { cbn in He'. destruct He' as [->|[->| ->]]; eexists _, _; split; try reflexivity; auto. }
          rewrite El, <- app_assoc in E. destruct (occ_inside a ((x :: r) ++ r1) a' [y] (e2 ++ r')) as [r2 E2]; [exact E|cbn; lia|].
          assert (In y a) by (rewrite E2, in_app_iff; right; left; reflexivity). destruct Hy as [-> | ->]; contradiction.
        - intros e' r' E He'. cbn [length]. destruct He' as [->|[->| ->]]; cbn [length]; try lia. exfalso.
          rewrite El, <- app_assoc in E. apply app_inv_head in E. injection E as -> E. destruct r as [|z r].
          + cbn in E. apply (Cl' ltac:(rewrite El; apply ends_cr_app) r'). exact E.
          + injection E as -> E. apply (Hr eq_refl r). reflexivity. }
      destruct (find_from CR line start) as [cr|] eqn:Ec, (find_from LF line start) as [lf|] eqn:Ef.
      + destruct (find_from_some _ _ _ _ Ec Nc Ls) as (a & r & El & La & Na & Lk).
        destruct (find_from_some _ _ _ _ Ef Nf Ls) as (a' & r' & El' & La' & Na' & Lk').
        destruct (lf <? cr)%nat eqn:Lt; [apply Nat.ltb_lt in Lt|apply Nat.ltb_ge in Lt].
        * injection H as <-. subst lf. apply (Main a' LF r'); auto; [|discriminate].
          intros I0. assert (Hp : a' ++ LF :: r' = a ++ CR :: r) by congruence. destruct (app_prefix _ _ _ _ Hp) as (z & -> & _); [lia|].
          apply Na. rewrite in_app_iff. auto.
        * assert (Nl : ~ In LF a).
          { intros I0. assert (Hp : a ++ CR :: r = a' ++ LF :: r') by congruence. destruct (app_prefix _ _ _ _ Hp) as (z & -> & _); [lia|].
            apply Na'. rewrite in_app_iff. auto. }
          destruct (lf =? cr + 1)%nat eqn:Eq; [apply Nat.eqb_eq in Eq|apply Nat.eqb_neq in Eq].
          -- injection H as <-. assert (Hp : a ++ CR :: r = a' ++ LF :: r') by congruence.
             assert (r = LF :: r').
             { destruct (app_prefix _ _ _ _ Hp) as (z & -> & Hz); [lia|]. rewrite app_length in La'.
               destruct z as [|z0 [|z1 z]]; cbn in La'; try lia. injection Hz as _ Hz. exact Hz. }
             subst r. split; [|rewrite El, app_length; cbn [length]; lia].
             left. exists a, [CR; LF], (r' ++ r1). rewrite El at 1. split; [now rewrite <- app_assoc|].
             split; [rewrite El, <- La, firstn_app_2; reflexivity|]. split; [cbn; auto|]. split.
             ++ intros b e' s' E He'. destruct (Nat.le_gt_cases (length a) (length b)) as [L|L]; [exact L|]. exfalso.
                assert (exists y e2, e' = y :: e2 /\ (y = CR \/ y = LF)) as (y & e2 & -> & Hy).
                { cbn in He'. destruct He' as [->|[->| ->]]; eexists _, _; split; try reflexivity; auto. }
                rewrite El, <- app_assoc in E. destruct (occ_inside a ((CR :: LF :: r') ++ r1) b [y] (e2 ++ s')) as [r2 E2]; [exact E|cbn; lia|].
                assert (In y a) by (rewrite E2, in_app_iff; right; left; reflexivity). destruct Hy as [-> | ->]; contradiction.
             ++ intros e' s' _ He'. pose proof (ending_nonempty _ _ He'). cbn [length]. lia.
          -- injection H as <-. subst cr. apply (Main a CR r); auto. intros _ s ->. apply Eq.
             assert (Hp : a ++ CR :: LF :: s = a' ++ LF :: r') by congruence.
             destruct (app_prefix _ _ _ _ Hp) as (z & -> & Hz); [lia|]. destruct z as [|z0 [|z1 z]].
             ++ discriminate Hz.
             ++ rewrite app_length in La'. cbn in La'. lia.
             ++ injection Hz as <- <- _. exfalso. apply Na'. rewrite in_app_iff. right. right. now left.
      + injection H as <-. destruct (find_from_some _ _ _ _ Ec Nc Ls) as (a & r & El & La & Na & Lk). subst cr.
        pose proof (find_from_none _ _ _ Ef Nf) as Nl. rewrite El, in_app_iff in Nl. apply (Main a CR r); auto.
        intros _ s ->. apply Nl. right. right. now left.
      + injection H as <-. destruct (find_from_some _ _ _ _ Ef Nf Ls) as (a & r & El & La & Na & Lk). subst lf.
        pose proof (find_from_none _ _ _ Ec Nc) as Nl. rewrite El, in_app_iff in Nl. apply (Main a LF r); auto. discriminate.
      + discriminate H.
    - cbn [nl_str] in H. destruct (find_sub [LF] line) as [n|] eqn:E; [|discriminate H]. injection H as <-. apply (sub [LF]); [intros; reflexivity|cbn; lia|exact E].
    - cbn [nl_str] in H. destruct (find_sub [CR] line) as [n|] eqn:E; [|discriminate H]. injection H as <-. apply (sub [CR]); [intros; reflexivity|cbn; lia|exact E].
    - cbn [nl_str] in H. destruct (find_sub [CR; LF] line) as [n|] eqn:E; [|discriminate H]. injection H as <-. apply (sub [CR; LF]); [intros; reflexivity|cbn; lia|exact E].
  Qed.

  Lemma find_end_none line start : find_end c line start = None -> no_ending nl (firstn start line) -> no_ending nl line.
  Proof.
    intros H N a e r E He. unfold find_end in H. fold nl in H. destruct nl eqn:Enl.
    - destruct (find_from LF line start) eqn:F; [discriminate H|]. cbn in He. subst e.
      apply (find_from_none _ _ _ F); [apply (no_ending_char NlNone); cbn; auto|]. rewrite E, in_app_iff. right. now left.
    - destruct (find_from CR line start) as [cr|] eqn:Ec, (find_from LF line start) as [lf|] eqn:Ef; try discriminate H.
      { destruct (_ <? _)%nat; [discriminate H|]. destruct (_ =? _)%nat; discriminate H. }
      pose proof (find_from_none _ _ _ Ec) as Nc. pose proof (find_from_none _ _ _ Ef) as Nf.
      destruct He as [->|[->| ->]].
      + apply Nf; [apply (no_ending_char NlEmpty); cbn; auto|]. rewrite E, in_app_iff. right. now left.
      + apply Nc; [apply (no_ending_char NlEmpty); cbn; auto|]. rewrite E, in_app_iff. right. now left.
      + apply Nc; [apply (no_ending_char NlEmpty); cbn; auto|]. rewrite E, in_app_iff. right. now left.
    - cbn [nl_str] in H. destruct (find_sub [LF] line) eqn:F; [discriminate H|]. cbn in He. subst e. eapply find_sub_none; eauto.
    - cbn [nl_str] in H. destruct (find_sub [CR] line) eqn:F; [discriminate H|]. cbn in He. subst e. eapply find_sub_none; eauto.
    - cbn [nl_str] in H. destruct (find_sub [CR; LF] line) eqn:F; [discriminate H|]. cbn in He. subst e. eapply find_sub_none; eauto.
  Qed.
End Lines.

Section Readline.
  Variable c : tconf.
  Hypothesis G : good_codec (tc_codec c).
  Variable C : list Z.
  Hypothesis small : len C < 2 ^ 59.
  Notation trep := (trep c C).

  Definition ind (l : list Z) : nat := match l with [] => 0%nat | _ => 1%nat end.

  Lemma fetch_ok : forall fuel t p r1 tel q, trep t p r1 tel q -> t_dec t <> None -> (length (from p C) + 1 <= fuel)%nat ->
    exists t' p' r1', fetch fuel c t = (Ok tt, t') /\ trep t' p' r1' tel q /\ r1 = t_chars t' ++ r1' /\ t_used t' = 0%nat /\ t_dec t' <> None
      /\ (t_chars t' = [] -> r1' = [] /\ from p' C = [])
      /\ (t_chars t' <> [] -> (length (from p' C) + ind r1' < length (from p C) + ind r1)%nat).
  Proof.
    induction fuel as [|fuel IH]; intros t p r1 tel q R Dn Hf; [lia|]. cbn [fetch].
    destruct (read_chunk_ok c G C small t p r1 tel q R Dn) as (more & t1 & p1 & r2 & E1 & R1 & Er & U1 & D1 & Hm).
    unfold bind. rewrite E1. destruct more; cbn [negb].
    - assert (Hi : t_chars t1 <> [] -> (ind r2 <= ind r1)%nat).
      { intros Hc. rewrite Er. destruct (t_chars t1); [congruence|]. cbn. destruct r2; cbn; lia. }
      destruct (t_chars t1) as [|x l] eqn:Ec.
      + cbn in Er. subst r2. destruct (IH t1 p1 r1 tel q R1 D1) as (t2 & p2 & r3 & E2 & R2 & Er2 & U2 & D2 & H1 & H2); [lia|].
        exists t2, p2, r3. split; [exact E2|]. repeat (split; [assumption|]). intros Hc. specialize (H2 Hc). lia.
      + exists t1, p1, r2. rewrite Ec. split; [reflexivity|]. repeat (split; [assumption|]). split; [discriminate|]. intros Hc. specialize (Hi Hc). lia.
    - destruct Hm as (-> & -> & Hend). exists t1, p, []. split; [reflexivity|]. repeat (split; [assumption|]). split; [auto|].
      intros Hc. rewrite app_nil_r in Er. rewrite Er. destruct (t_chars t1); [congruence|]. cbn. lia.
  Qed.

  Lemma clean_suffix a b r1 : clean c b r1 -> b <> [] -> clean c (a ++ b) r1.
  Proof. intros H N U T E. rewrite (ends_cr_app2 a b N) in E. now apply H. Qed.
  Lemma clean_skipn k b r1 : clean c b r1 -> clean c (skipn k b) r1.
  Proof.
    intros H U T E. apply (H U T). rewrite <- (firstn_skipn k b). destruct (skipn k b) eqn:Es; [discriminate E|]. rewrite ends_cr_app2; [exact E|discriminate].
  Qed.

  (** What one call of readline leaves behind. *)
  Definition line_done (size : Z) (full : list Z) (r : res (list Z)) (t' : tstate) (tel q : bool) : Prop :=
    exists L p' r1', first_line (tc_newline c) full L /\ r = Ok (limit (Some size) L) /\ trep t' p' r1' tel q
      /\ left t' r1' = skipn (length (limit (Some size) L)) full
      /\ (size < 0 -> L = [] -> t_chars t' = [] /\ r1' = [] /\ from p' C = []).

  Lemma finish_ok size t p r1 tel q line start e L : trep t p r1 tel q -> t_used t = length (t_chars t) -> (length line <= start + t_used t)%nat ->
    skipn (length (t_chars t) - (length line - start)) (t_chars t) = skipn start line ->
    (start <= e <= length line)%nat -> (0 <= size -> Z.of_nat start <= size) ->
    first_line (tc_newline c) (line ++ r1) L ->
    (firstn e line = limit (Some size) L) -> (size < 0 -> L <> []) ->
    exists r t', (rewind_chars (length line - e) ;; ret (firstn e line)) t = (r, t') /\ line_done size (line ++ r1) r t' tel q.
  Proof.
    intros R U Ls Sf He Hs FL Ef Hne. unfold rewind_chars, bind, ret. destruct (t_used t <? length line - e)%nat eqn:Lt.
    { apply Nat.ltb_lt in Lt. lia. }
    apply Nat.ltb_ge in Lt. eexists _, _. split; [reflexivity|]. exists L, p, r1. split; [exact FL|]. split; [now rewrite Ef|].
    split; [apply trep_used; [exact R|lia]|]. split; [|intros H1 H2; exfalso; now apply (Hne H1)].
    rewrite <- Ef. unfold left. tcbn. rewrite firstn_length, Nat.min_l by lia. rewrite skipn_app. replace (e - length line)%nat with 0%nat by lia. cbn [skipn]. f_equal.
    replace (t_used t - (length line - e))%nat with (length (t_chars t) - (length line - start) + (e - start))%nat by lia.
    rewrite <- skipn_skipn', Sf, skipn_skipn'. f_equal. lia.
  Qed.

  Lemma limit_neg size l : size < 0 -> limit (Some size) l = l.
  Proof. intros H. unfold limit. now apply Z.ltb_lt in H as ->. Qed.
  Lemma limit_pos size l : 0 <= size -> limit (Some size) l = firstn (Z.to_nat size) l.
  Proof. intros H. unfold limit. now apply Z.ltb_ge in H as ->. Qed.

  Lemma tline_loop_ok size : forall fuel t p r1 tel q line start, trep t p r1 tel q -> t_dec t <> None -> t_used t = length (t_chars t) ->
    (start <= length line)%nat -> (length line <= start + t_used t)%nat ->
    skipn (length (t_chars t) - (length line - start)) (t_chars t) = skipn start line ->
    clean c line r1 -> no_ending (tc_newline c) (firstn start line) -> (0 <= size -> Z.of_nat start <= size) ->
    (length (from p C) + ind r1 + 1 <= fuel)%nat ->
    exists r t', tline_loop fuel c size line start t = (r, t') /\ line_done size (line ++ r1) r t' tel q.
  Proof.
    induction fuel as [|fuel IH]; intros t p r1 tel q line start R Dn U L1 L2 Sf Cl N Hs Hf; [lia|].
    cbn [tline_loop]. destruct (find_end c line start) as [e|] eqn:Fe.
    - destruct (find_end_some c line start r1 e Fe L1 N Cl) as [FL He].
      assert (Hne : firstn e line <> []).
      { intros H. destruct e as [|e].
        - cbn in FL. apply first_line_nonempty in FL; [|reflexivity]. destruct line; [|discriminate FL].
          unfold find_end in Fe. destruct start; [|cbn in L1; lia]. cbn in Fe. destruct (tc_newline c); discriminate Fe.
        - destruct line; [cbn in He; lia|discriminate H]. }
      destruct ((0 <=? size) && (size <? Z.of_nat e)) eqn:Hsz.
      + apply andb_true_iff in Hsz as [H1 H2]. apply Z.leb_le in H1. apply Z.ltb_lt in H2.
        eapply finish_ok; eauto; [lia|]. rewrite limit_pos by lia. rewrite firstn_firstn. f_equal. lia.
      + eapply finish_ok; eauto. apply andb_false_iff in Hsz. destruct (Z.lt_ge_cases size 0) as [H|H]; [now rewrite limit_neg|].
        rewrite limit_pos by lia. rewrite firstn_firstn. f_equal. destruct Hsz as [X|X]; [apply Z.leb_gt in X; lia|apply Z.ltb_ge in X; lia].
    - pose proof (find_end_none c line start Fe N) as Nl.
      destruct (over size (length line)) eqn:Ov.
      + unfold over in Ov. apply andb_true_iff in Ov as [H1 H2]. apply Z.leb_le in H1, H2. rewrite Z2Nat.id by lia. rewrite Z.ltb_irrefl, andb_false_r.
        destruct (first_line_exists (tc_newline c) (line ++ r1)) as [L FL].
        destruct (first_line_beyond _ _ _ _ Nl FL) as [L' ->].
        eapply finish_ok; eauto; [lia| |try lia ..]. rewrite limit_pos by lia. rewrite firstn_app. replace (Z.to_nat size - length line)%nat with 0%nat by lia. cbn. now rewrite app_nil_r.
      + destruct (chunk_fuel_ok _ _ _ _ _ _ _ R) as (f & E1 & Hf1). unfold bind at 1. rewrite E1.
        destruct (fetch_ok f t p r1 tel q R Dn) as (t1 & p1 & r2 & E2 & R1 & Er & U1 & D1 & H1 & H2); [lia|].
        unfold bind at 1. rewrite E2. destruct (t_chars t1) as [|x l] eqn:Ec.
        * destruct (H1 eq_refl) as [-> Hend]. cbn in Er. subst r1. rewrite app_nil_r.
          eexists _, _. split; [reflexivity|]. exists line, p1, []. split; [right; split; [reflexivity|exact Nl]|].
          assert (Hl : limit (Some size) line = line).
          { destruct (Z.lt_ge_cases size 0) as [H|H]; [now apply limit_neg|]. rewrite limit_pos by lia. apply firstn_all2.
            unfold over in Ov. apply andb_false_iff in Ov as [X|X]; [apply Z.leb_gt in X; lia|apply Z.leb_gt in X; lia]. }
          rewrite Hl. split; [reflexivity|]. split; [|split; [rewrite skipn_all; unfold left; tcbn; reflexivity|tcbn; auto]].
          destruct R1 as [B P Uu O K D F Cc T S]. unfold t_decoder in *.
          split; unfold t_decoder; tcbn; auto; [apply clean_nil_l|]. intros Ht. unfold snap_ok. tcbn.
          assert (Z0 : fut c (sput c 0) (from p1 C) = Some []) by (rewrite Hend, (sput_0 c); now apply fut_end).
          destruct (t_dec t1); auto.
        * rewrite <- Ec in *. assert (Nc : t_chars t1 <> []) by (rewrite Ec; discriminate). specialize (H2 Nc).
          destruct (get_chars_ok c C None _ _ _ _ _ R1) as (t2 & E3 & R2 & C2 & D2 & S2 & U2 & B2). unfold bind at 1. rewrite E3. rewrite U1. cbn [skipn].
          destruct (IH t2 p1 r2 tel q (line ++ t_chars t1) (length line)) as (r & t3 & E4 & LD).
          -- exact R2.
          -- congruence.
          -- congruence.
          -- rewrite app_length. lia.
          -- rewrite app_length, U2. lia.
          -- rewrite C2, app_length. replace (length (t_chars t1) - (length line + length (t_chars t1) - length line))%nat with 0%nat by lia.
             cbn [skipn]. rewrite skipn_app, skipn_all, Nat.sub_diag. reflexivity.
          -- apply clean_suffix; [apply (tr_clean _ _ _ _ _ _ _ R1)|exact Nc].
          -- rewrite firstn_app, firstn_all, Nat.sub_diag. cbn [firstn]. rewrite app_nil_r. exact Nl.
          -- intros H. unfold over in Ov. apply andb_false_iff in Ov as [X|X]; apply Z.leb_gt in X; lia.
          -- lia.
          -- exists r, t3. split; [exact E4|]. rewrite Er, app_assoc. exact LD.
  Qed.

  Lemma t_readline_ok n t p r1 tel q : trep t p r1 tel q ->
    exists L t' p' r1', t_readline c n t = (Ok (limit n L), t') /\ first_line (tc_newline c) (left t r1) L /\ trep t' p' r1' tel q
      /\ left t' r1' = skipn (length (limit n L)) (left t r1)
      /\ (n = None -> L = [] -> t_chars t' = [] /\ r1' = [] /\ from p' C = []).
  Proof.
    intros R. unfold t_readline. unfold bind at 1, t_check_closed at 1. rewrite (bst_open _ _ _ _ (tr_b _ _ _ _ _ _ _ R)).
    destruct (get_chars_ok c C None _ _ _ _ _ R) as (t1 & E1 & R1 & C1 & D1 & S1 & U1 & B1). unfold bind at 1. rewrite E1.
    destruct (make_decoder_ok c C _ _ _ _ _ R1) as (t2 & E2 & R2 & D2 & U2 & C2 & B2 & S2). unfold bind at 1. rewrite E2.
    destruct (chunk_fuel_ok _ _ _ _ _ _ _ R2) as (f & E3 & Hf). unfold bind at 1. rewrite E3.
    set (size := match n with None => -1 | Some n => n end). pose proof (tr_used _ _ _ _ _ _ _ R) as Uu.
    destruct (tline_loop_ok size f t2 p r1 tel q (skipn (t_used t) (t_chars t)) 0) as (r & t3 & E4 & L & p3 & r3 & FL & -> & R3 & L3 & He); auto; try lia.
    - congruence.
    - rewrite skipn_length, U2, U1. lia.
    - rewrite skipn_length, C2, C1. cbn [skipn]. f_equal. lia.
    - apply clean_skipn. apply (tr_clean _ _ _ _ _ _ _ R).
    - cbn [firstn]. intros a e s H He. apply ending_nonempty in He. destruct a, e; cbn in *; try discriminate; lia.
    - assert (ind r1 <= 1)%nat by (destruct r1; cbn; lia). lia.
    - assert (Hlim : limit (Some size) L = limit n L) by (destruct n; reflexivity). rewrite Hlim in *.
      exists L, t3, p3, r3. split; [exact E4|]. split; [exact FL|]. split; [exact R3|]. split; [exact L3|].
      intros -> . apply He. reflexivity.
  Qed.

  Lemma trep_telling t p r1 tel q b : trep t p r1 tel q -> (b = true -> snap_ok c C t p r1 q) -> trep (set_telling t b) p r1 b q.
  Proof. intros [B P U O K D F Cl T S] H. unfold t_decoder in *. split; unfold t_decoder; tcbn; auto. Qed.

  Lemma t_next_ok t p r1 tel q : trep t p r1 tel q ->
    (exists L t' p' r1', t_next c t = (Ok (Some L), t') /\ first_line (tc_newline c) (left t r1) L /\ L <> [] /\ trep t' p' r1' false q
      /\ left t' r1' = skipn (length L) (left t r1))
    \/ (exists t' p', t_next c t = (Ok None, t') /\ left t r1 = [] /\ trep t' p' [] true q /\ left t' [] = []).
  Proof.
    intros R. unfold t_next, bind, upd_t, ret.
    assert (R0 : trep (set_telling t false) p r1 false q) by (eapply trep_telling; eauto; discriminate).
    destruct (t_readline_ok None _ _ _ _ _ R0) as (L & t1 & p1 & r2 & E1 & FL & R1 & L1 & He). cbn [limit] in *.
    rewrite E1. assert (Le : left (set_telling t false) r1 = left t r1) by reflexivity. rewrite Le in *.
    destruct L as [|x L].
    - right. destruct (He eq_refl eq_refl) as (Hc & -> & Hend). eexists _, p1. split; [reflexivity|].
      split; [now apply (first_line_nonempty _ _ _ FL)|]. unfold t_seekable. tcbn. rewrite (bst_seekable _ _ _ _ (tr_b _ _ _ _ _ _ _ R1)).
      split; [|unfold left; tcbn; rewrite Hc; destruct (t_used t1); reflexivity].
      assert (Z0 : fut c (sput c 0) (from p1 C) = Some []) by (rewrite Hend, (sput_0 c); now apply fut_end).
      assert (Sn : snap_ok c C (set_snap t1 None) p1 [] q) by (unfold snap_ok; tcbn; destruct (t_dec t1); auto).
      destruct R1 as [B P U O K D F Cl T S]. unfold t_decoder in *. split; unfold t_decoder; tcbn; auto.
    - left. exists (x :: L), t1, p1, r2. split; [reflexivity|]. split; [exact FL|]. split; [discriminate|]. split; assumption.
  Qed.
End Readline.
