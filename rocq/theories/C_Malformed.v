(** C80, C81: text streams over bytes that are not all well-formed. *)
From Coq Require Import ZArith Ascii String List Bool Lia.
From Verif Require Import M_Base M_Modes M_Registry M_Kernel M_World M_Raw M_Buffered M_Newline M_Text S_Bytes S_Raw S_Demo S_Buffered S_Newline S_Text S_Codecs S_Malformed
  P_Bytes P_Raw P_Buffered P_BufOps P_Newline P_Decode P_TextBase P_TextRead P_TextLine P_TextTell P_Codecs P_Malformed C_Buffered C_Text.
Import ListNotations.
Open Scope Z_scope.

Definition stands (c c' : tconf) (C : list Z) (t : tstate) (s : bool * tview) : Prop :=
  sound c C t /\ (forall n r, In (n, r) (tv_known (snd s)) -> told c' C n r) /\ (fst s = false -> shows c' C t (snd s)).

Definition next_lost (lost : bool) (op : top) (out : tout) : bool :=
  match out with TErr EValue => true | _ => match op with ToSeek _ | ToEnd => false | _ => lost end end.
Definition next_known (lost : bool) (known : list Z) (op : top) (out : tout) : list Z :=
  match op, out with
  | ToTell, TInt n => if lost then known else n :: known
  | ToEnd, TInt n => n :: known
  | _, _ => known
  end.

Lemma shows_sound c cd C t v : shows (with_codec c cd) C t v -> sound c C t.
Proof. intros (p & r1 & R & _). exists p. exact (tr_b _ _ _ _ _ _ _ R). Qed.
Lemma shows_told c C t v : shows c C t v -> forall n r, In (n, r) (tv_known v) -> told c C n r.
Proof. intros (p & r1 & _ & _ & K). exact K. Qed.

Lemma mstep_refines guess c cd C op t s out t' : extends (tc_codec c) cd -> good_codec cd -> len C < 2 ^ 59 -> sane guess ->
  stands c (with_codec c cd) C t s -> (forall n, op = ToSeek n -> In n (map fst (tv_known (snd s)))) -> run_top guess c op t = (out, t') ->
  exists s', mstep (tc_newline c) s op out s' /\ stands c (with_codec c cd) C t' s'
    /\ fst s' = next_lost (fst s) op out /\ map fst (tv_known (snd s')) = next_known (fst s) (map fst (tv_known (snd s))) op out.
Proof.
  intros EX G Sm Gs (Sd & Kn & Sh) Hk E. destruct s as [lost v]. cbn [fst snd] in *.
  assert (G' : good_codec (tc_codec (with_codec c cd))) by exact G.
  assert (Sd' : sound c C t') by (pose proof (keeps_run c C guess op t Sd) as H; rewrite E in H; exact H).
  destruct (run_top_agree c cd EX guess op t) as [A|(A & Ne & Nb)].
  2:{ rewrite E in A. cbn [fst] in A. subst out. exists (true, v). split; [now constructor|].
      split; [split; [exact Sd'|split; [exact Kn|discriminate]]|]. cbn [fst snd]. split; [reflexivity|]. destruct op; reflexivity. }
  rewrite E in A. symmetry in A. destruct lost.
  - destruct op as [n|n| | |n|].
    + exists (true, v). split; [constructor; [discriminate|intros ?; discriminate]|]. split; [split; [exact Sd'|split; [exact Kn|discriminate]]|].
      cbn [fst snd next_lost next_known]. split; [destruct out as [| | |[]]; reflexivity|reflexivity].
    + exists (true, v). split; [constructor; [discriminate|intros ?; discriminate]|]. split; [split; [exact Sd'|split; [exact Kn|discriminate]]|].
      cbn [fst snd next_lost next_known]. split; [destruct out as [| | |[]]; reflexivity|reflexivity].
    + exists (true, v). split; [constructor; [discriminate|intros ?; discriminate]|]. split; [split; [exact Sd'|split; [exact Kn|discriminate]]|].
      cbn [fst snd next_lost next_known]. split; [destruct out as [| | |[]]; reflexivity|reflexivity].
    + exists (true, v). split; [constructor; [discriminate|intros ?; discriminate]|]. split; [split; [exact Sd'|split; [exact Kn|discriminate]]|].
      cbn [fst snd next_lost next_known]. split; [destruct out as [| | |[]]; reflexivity|destruct out; reflexivity].
    + specialize (Hk n eq_refl). apply in_map_iff in Hk as ((m & r) & Em & Hin). cbn in Em. subst m.
      destruct Sd as (p & B). destruct (t_seek_bst (with_codec c cd) G' C Sm guess n r t p B (Kn _ _ Hin)) as (t1 & p1 & r1 & E1 & R1 & L1).
      cbn [run_top] in A. rewrite E1 in A. injection A as <- <-.
      exists (false, mkTV r (tv_known v) true true). split; [now constructor|]. split; [|split; reflexivity].
      split; [exact Sd'|]. split; [exact Kn|]. intros _. exists p1, r1. split; [exact R1|]. split; [exact L1|exact Kn].
    + destruct Sd as (p & B). destruct (t_seek_end_bst (with_codec c cd) G' C Sm guess t p B) as (n & t1 & p1 & E1 & R1 & L1 & Tn).
      cbn [run_top] in A. rewrite E1 in A. injection A as <- <-.
      assert (Kn' : forall m r, In (m, r) ((n, []) :: tv_known v) -> told (with_codec c cd) C m r).
      { intros m r [H|H]; [injection H as <- <-; exact Tn|now apply Kn]. }
      exists (false, mkTV [] ((n, []) :: tv_known v) true true). split; [constructor|]. split; [|split; reflexivity].
      split; [exact Sd'|]. split; [exact Kn'|]. intros _. exists p1, []. split; [exact R1|]. split; [exact L1|exact Kn'].
  - specialize (Sh eq_refl). destruct (step_refines guess (with_codec c cd) C op t v out t' G' Sm Gs Sh Hk A) as (v' & St & Sh' & K').
    exists (false, v'). split; [constructor; exact St|]. split; [split; [exact Sd'|split; [exact (shows_told _ _ _ _ Sh')|auto]]|].
    cbn [fst snd]. split.
    + unfold next_lost. inversion St; subst; try reflexivity.
    + rewrite K'. unfold next_known. destruct op, out; reflexivity.
Qed.

Lemma seeks_certain_cons lost known op out l : seeks_certain lost known ((op, out) :: l) <->
  (forall n, op = ToSeek n -> In n known) /\ seeks_certain (next_lost lost op out) (next_known lost known op out) l.
Proof. reflexivity. Qed.

Lemma mruns_refines guess c cd C : extends (tc_codec c) cd -> good_codec cd -> len C < 2 ^ 59 -> sane guess -> forall ops t s outs t',
  stands c (with_codec c cd) C t s -> seeks_certain (fst s) (map fst (tv_known (snd s))) (combine ops outs) -> run_tops guess c ops t = (outs, t') ->
  exists s', mruns (tc_newline c) s ops outs s' /\ stands c (with_codec c cd) C t' s'.
Proof.
  intros EX G Sm Gs. induction ops as [|op ops IH]; intros t s outs t' Sd Hk E; cbn [run_tops] in E.
  - injection E as <- <-. exists s. split; [constructor|exact Sd].
  - destruct (run_top guess c op t) as [out t1] eqn:E1. destruct (run_tops guess c ops t1) as [outs' t2] eqn:E2. injection E as <- <-.
    cbn [combine] in Hk. destruct (proj1 (seeks_certain_cons _ _ _ _ _) Hk) as [H1 H2]. clear Hk.
    destruct (mstep_refines guess c cd C op t s out t1 EX G Sm Gs Sd H1 E1) as (s1 & M1 & S1 & L1 & K1).
    rewrite <- L1, <- K1 in H2. destruct (IH t1 s1 outs' t2 S1 H2 E2) as (s2 & M2 & S2). exists s2. split; [econstructor; eauto|exact S2].
Qed.

Lemma text_stands c cd f size w o i txt : text_setting (with_codec c cd) f size w o i txt ->
  stands c (with_codec c cd) (n_data i) (text_fresh f size w) (false, mkTV txt [(o_pos o, txt)] true false).
Proof.
  intros S. destruct (text_trep _ _ _ _ _ _ _ S) as (R & L & Tn).
  assert (K : forall n r, In (n, r) [(o_pos o, txt)] -> told (with_codec c cd) (n_data i) n r) by (intros n r [H|[]]; injection H as <- <-; exact Tn).
  split; [exists (o_pos o); exact (tr_b _ _ _ _ _ _ _ R)|]. cbn [fst snd tv_known]. split; [exact K|]. intros _. exists (o_pos o), txt. auto.
Qed.

(** C80: whatever the bytes, a text stream behaves like a cursor in the text [txt] that a more tolerant codec makes of them, until an operation
    fails with a ValueError, and again after seek(0, 2) or a seek() to a position given before. *)
Theorem C80_text_until_error : forall guess c cd f size w o i txt ops outs t',
  text_setting (with_codec c cd) f size w o i txt -> extends (tc_codec c) cd -> sane guess ->
  run_tops guess c ops (text_fresh f size w) = (outs, t') -> seeks_certain false [o_pos o] (combine ops outs) ->
  exists s, mruns (tc_newline c) (false, mkTV txt [(o_pos o, txt)] true false) ops outs s.
Proof.
  intros guess c cd f size w o i txt ops outs t' S EX Gs E Hk. pose proof (text_stands c cd f size w o i txt S) as St. destruct S as [_ K G Sm Ps Tx].
  destruct (mruns_refines guess c cd (n_data i) EX G Sm Gs ops _ _ outs t' St Hk E) as (s & M & _). eauto.
Qed.

(** * UTF-8 *)
(** A text stream just made over any bytes: the text with a mark at each malformed byte exists, whatever the mark. *)
Record utf8_setting (c : tconf) (f : rawio) (size : Z) (w : world) (o : ofd) (i : inode) : Prop := mkUS {
  us_codec : tc_codec c = utf8;
  us_setting : setting (tc_kind c) f size w o i;
  us_kind : tc_kind c <> BWriter;
  us_small : len (n_data i) < 2 ^ 59;
  us_pos : o_pos o < 2 ^ 63 }.
Lemma utf8_text c f size w o i m txt : utf8_setting c f size w o i ->
  text_of (utf8_marking m) (tc_newline c) (skipn (Z.to_nat (o_pos o)) (n_data i)) txt -> text_setting (with_codec c (utf8_marking m)) f size w o i txt.
Proof. intros [Co St K Sm Ps] Tx. constructor; auto. apply utf8_marking_good. Qed.

Theorem C80_utf8 : forall guess c f size w o i m ops outs t', utf8_setting c f size w o i -> sane guess ->
  run_tops guess c ops (text_fresh f size w) = (outs, t') -> seeks_certain false [o_pos o] (combine ops outs) ->
  exists txt s, text_of (utf8_marking m) (tc_newline c) (skipn (Z.to_nat (o_pos o)) (n_data i)) txt
    /\ mruns (tc_newline c) (false, mkTV txt [(o_pos o, txt)] true false) ops outs s.
Proof.
  intros guess c f size w o i m ops outs t' S Gs E Hk. destruct (utf8_marking_total m (tc_newline c) (skipn (Z.to_nat (o_pos o)) (n_data i))) as (txt & Tx).
  assert (EX : extends (tc_codec c) (utf8_marking m)) by (rewrite (us_codec _ _ _ _ _ _ S); apply utf8_marking_extends).
  destruct (C80_text_until_error guess c (utf8_marking m) f size w o i txt ops outs t' (utf8_text _ _ _ _ _ _ _ _ S Tx) EX Gs E Hk) as (s & M). eauto.
Qed.

(** Well-formed bytes, standing for [raw], followed by malformed ones, or by a character cut off. *)
Definition spoilt (b raw : list Z) : Prop :=
  exists good bad, b = good ++ bad /\ cd_decode utf8 ([], 0) good false = Some (raw, ([], 0)) /\ bad <> [] /\ forall ch n, utf8_next bad <> NChar ch n.

Lemma marked m b raw : spoilt b raw -> exists more st, cd_decode (utf8_marking m) ([], 0) b true = Some (raw ++ m :: more, st).
Proof.
  intros (good & bad & -> & Dg & Nn & Nc). assert (Dg' : decode_all utf8_next (length good) good false = Some (raw, [])).
  { cbn [utf8 simple_codec cd_decode fst snd app] in Dg. destruct (decode_all utf8_next (length good) good false) as [[r b]|]; [|discriminate Dg]. congruence. }
  destruct (utf8_next bad) as [| |ch n] eqn:Nb; [|exact (marking_prefix m utf8_next utf8_enc1 utf8_next_char utf8_next_app utf8_next_bad utf8_next_nil good bad raw 0 Dg' Nb)|now elim (Nc ch n)].
  cbn [utf8_marking marking cd_decode fst snd app].
  pose proof (run_app (lenient m utf8_next) (lenient_char m utf8_next utf8_next_char utf8_next_nil) (lenient_app m utf8_next utf8_next_app utf8_next_bad) (lenient_bad m utf8_next) (length good) good (le_n _) bad false) as RA.
  rewrite (lrun_strict m utf8_next _ _ _ _ _ Dg') in RA. rewrite RA. cbn [app]. destruct bad as [|z bad]; [congruence|].
  rewrite (run_step (lenient m utf8_next) (lenient_char m utf8_next utf8_next_char utf8_next_nil)).
  change (lenient m utf8_next (z :: bad)) with (match utf8_next (z :: bad) with NBad => NChar m 1 | y => y end). rewrite Nb.
  rewrite app_nil_r. eexists [], _. reflexivity.
Qed.

Lemma pieces_app s ps : pieces s ps -> forall r rs, pieces r rs -> (forall t, r <> 10 :: t) -> pieces (s ++ r) (ps ++ rs).
Proof.
  intros P. induction P as [|p s ps O N P IH]; intros r rs R Hr; [exact R|]. rewrite <- app_assoc. cbn [app]. apply ps_cons; [exact O| |now apply IH].
  intros Hp t. destruct s as [|x s]; [apply Hr|]. cbn [app]. intros E. injection E as -> _. now elim (N Hp s).
Qed.
Lemma marked_text m nl b raw txt0 : spoilt b raw -> newlines_read nl raw txt0 -> m <> 10 -> m <> 13 ->
  exists more, text_of (utf8_marking m) nl b (txt0 ++ m :: more).
Proof.
  intros Sp N H10 H13. destruct (marked m b raw Sp) as (more & st & D). unfold text_of. change (cd_d0 (utf8_marking m)) with 0.
  assert (Plain : nl <> NlNone -> exists more, exists raw0 st, cd_decode (utf8_marking m) ([], 0) b true = Some (raw0, st) /\ newlines_read nl raw0 (txt0 ++ m :: more)).
  { intros Hn. exists more, (raw ++ m :: more), st. split; [exact D|]. destruct nl; try congruence; cbn in *; now subst. }
  destruct nl; try (now apply Plain). destruct N as (ps & P & ->). destruct (pieces_exist more) as (qs & Q).
  exists (flat_map translated qs), (raw ++ m :: more), st. split; [exact D|]. exists (ps ++ PChar m :: qs). split.
  - apply pieces_app; [exact P| |intros t X; injection X as X _; congruence]. apply (ps_cons (PChar m) more qs); [cbn; auto|discriminate|exact Q].
  - rewrite flat_map_app. reflexivity.
Qed.

Lemma limit_prefix n l : exists r, l = limit n l ++ r.
Proof.
  destruct n as [n|]; cbn [limit]; [|exists []; now rewrite app_nil_r]. destruct (n <? 0); [exists []; now rewrite app_nil_r|].
  exists (skipn (Z.to_nat n) l). symmetry. apply firstn_skipn.
Qed.
Lemma skipn_prefix {A} (l r : list A) : skipn (length l) (l ++ r) = r.
Proof. rewrite skipn_app, skipn_all, Nat.sub_diag. reflexivity. Qed.
Lemma mruns_gathered nl : forall ops outs s s', mruns nl s ops outs s' -> fst s = false -> forallb reading ops = true -> exists r, tv_rest (snd s) = gathered outs ++ r.
Proof.
  intros ops outs s s' M. induction M as [s|s op out s1 ops outs s2 St M IH]; intros Hf Hr; [exists (tv_rest (snd s)); reflexivity|].
  cbn [forallb] in Hr. apply andb_true_iff in Hr as [H1 H2].
  inversion St; subst; cbn [fst snd] in *; try discriminate Hf.
  - specialize (IH eq_refl H2). destruct IH as (r & Hr). match goal with H : tastep _ _ _ _ _ |- _ => inversion H; subst end; cbn [tv_rest gathered] in *; try discriminate H1.
    + match goal with H : skipn (length (limit ?n ?l)) ?l = _ |- _ => destruct (limit_prefix n l) as (z & Hz); rewrite Hz in H at 2; rewrite skipn_prefix in H; exists r; rewrite Hz at 1; rewrite H, app_assoc; reflexivity end.
    + match goal with H : first_line _ _ ?l |- _ => destruct (first_line_prefix _ _ _ H) as [z Hz] end.
      match goal with H : skipn (length (limit ?n ?l)) _ = _ |- _ => destruct (limit_prefix n l) as (y & Hy) end. subst.
      match goal with H : skipn (length ?a) (?b ++ ?z) = _ |- _ => assert (Hb : b ++ z = a ++ (y ++ z)) by (rewrite Hy at 1; now rewrite <- app_assoc); rewrite Hb, skipn_prefix in H; exists r; rewrite Hb, H, app_assoc; reflexivity end.
    + match goal with H : first_line _ _ ?l |- _ => destruct (first_line_prefix _ _ _ H) as [z Hz] end. subst. rewrite skipn_prefix in Hr. subst z. exists r. now rewrite app_assoc.
    + eauto.
  - exists (tv_rest v). reflexivity.
Qed.

Lemma two_marks (txt0 g a b r s : list Z) (m1 m2 : Z) : m1 <> m2 -> txt0 ++ m1 :: a = g ++ r -> txt0 ++ m2 :: b = g ++ s -> exists rest, txt0 = g ++ rest.
Proof.
  intros Hm. revert g. induction txt0 as [|x txt0 IH]; intros [|y g] H1 H2; cbn [app] in *; try (eexists; reflexivity).
  - injection H1 as -> _. injection H2 as -> _. congruence.
  - injection H1 as <- H1. injection H2 as H2. destruct (IH g H1 H2) as (rest & ->). eauto.
Qed.

Lemma reading_certain : forall ops outs lost known, forallb reading ops = true -> seeks_certain lost known (combine ops outs).
Proof.
  induction ops as [|op ops IH]; intros [|out outs] lost known H; cbn [combine]; try exact Logic.I. cbn [forallb] in H. apply andb_true_iff in H as [H1 H2].
  apply seeks_certain_cons. split; [intros n ->; discriminate H1|now apply IH].
Qed.
Lemma reading_guess guess c : forall ops t, forallb reading ops = true -> run_tops guess c ops t = run_tops exact_guess c ops t.
Proof.
  induction ops as [|op ops IH]; intros t H; [reflexivity|]. cbn [forallb] in H. apply andb_true_iff in H as [H1 H2]. cbn [run_tops].
  replace (run_top exact_guess c op t) with (run_top guess c op t) by (destruct op; try discriminate H1; reflexivity).
  destruct (run_top guess c op t) as [out t1]. now rewrite IH.
Qed.
Lemma exact_sane : sane exact_guess.
Proof.
  intros a b n H. unfold exact_guess. apply inj_le. destruct b; [replace n with 0%nat by lia; cbn; lia|].
  apply Nat.div_le_upper_bound; [lia|]. rewrite Nat.mul_comm. apply Nat.mul_le_mono_r. exact H.
Qed.

(** C80: what is read until the first error is text that stands before the first malformed byte: nothing is made up, and a malformed byte is
    never passed over in silence. *)
Theorem C80_only_real_text : forall guess c f size w o i raw txt0 ops outs t', utf8_setting c f size w o i ->
  spoilt (skipn (Z.to_nat (o_pos o)) (n_data i)) raw -> newlines_read (tc_newline c) raw txt0 ->
  forallb reading ops = true -> run_tops guess c ops (text_fresh f size w) = (outs, t') ->
  exists rest, txt0 = gathered outs ++ rest.
Proof.
  intros guess c f size w o i raw txt0 ops outs t' S Sp N Hr E. rewrite (reading_guess guess c ops _ Hr) in E.
  assert (Each : forall m, m <> 10 -> m <> 13 -> exists more r, txt0 ++ m :: more = gathered outs ++ r).
  { intros m H10 H13. destruct (marked_text m _ _ _ _ Sp N H10 H13) as (more & Tx). exists more.
    assert (EX : extends (tc_codec c) (utf8_marking m)) by (rewrite (us_codec _ _ _ _ _ _ S); apply utf8_marking_extends).
    destruct (C80_text_until_error exact_guess c (utf8_marking m) f size w o i _ ops outs t' (utf8_text _ _ _ _ _ _ _ _ S Tx) EX exact_sane E) as (s & M).
    - now apply reading_certain.
    - exact (mruns_gathered _ _ _ _ _ M eq_refl Hr). }
  destruct (Each 1) as (a & r & Ha); [lia|lia|]. destruct (Each 2) as (b & s & Hb); [lia|lia|]. exact (two_marks txt0 (gathered outs) a b r s 1 2 ltac:(lia) Ha Hb).
Qed.

(** C80: read() to the end of such a file fails. *)
Theorem C80_read_all_fails : forall c f size w o i raw, utf8_setting c f size w o i ->
  spoilt (skipn (Z.to_nat (o_pos o)) (n_data i)) raw -> exists t', t_read c None (text_fresh f size w) = (Err EValue, t').
Proof.
  intros c f size w o i raw S Sp. destruct (t_read c None (text_fresh f size w)) as [r t'] eqn:Er. exists t'. f_equal.
  assert (N : exists txt0, newlines_read (tc_newline c) raw txt0).
  { destruct (pieces_exist raw) as (ps & P). destruct (tc_newline c); try (exists raw; reflexivity). exists (flat_map translated ps), ps. auto. }
  destruct N as (txt0 & N). assert (E : run_tops exact_guess c [ToRead None] (text_fresh f size w) = ([match r with Ok s => TText s | Err e => TErr e end], t')).
  { cbn [run_tops run_top]. rewrite Er. destruct r; reflexivity. }
  destruct (C80_only_real_text exact_guess c f size w o i raw txt0 [ToRead None] _ t' S Sp N eq_refl E) as (rest & Hp).
  destruct (marked_text 1 _ _ _ _ Sp N ltac:(lia) ltac:(lia)) as (more & Tx).
  assert (EX : extends (tc_codec c) (utf8_marking 1)) by (rewrite (us_codec _ _ _ _ _ _ S); apply utf8_marking_extends).
  destruct (C80_text_until_error exact_guess c (utf8_marking 1) f size w o i _ _ _ t' (utf8_text _ _ _ _ _ _ _ _ S Tx) EX exact_sane E) as (s & M); [split; [intros n; discriminate|exact Logic.I]|].
  inversion M as [|s0 op0 out0 s1 ops0 outs0 s2 St M0]; subst. inversion St; subst.
  - match goal with H : tastep _ _ _ ?x _ |- _ => remember x as out1 eqn:Eo; inversion H; subst end.
    destruct r as [l|e]; [|discriminate]. cbn [gathered limit] in *.
    match goal with H : TText _ = TText l |- _ => apply (f_equal (fun x => match x with TText s => length s | _ => O end)) in H; rewrite !app_length in H; cbn [length] in H; lia end.
  - destruct r as [l|e]; [discriminate|]. congruence.
Qed.

(** C81: after any reads, and errors, seek() to the place where the stream was made succeeds, and reading starts again from there. *)
Theorem C81_seek_back_partial : forall guess c f size w o i m txt ops outs t', utf8_setting c f size w o i -> sane guess ->
  text_of (utf8_marking m) (tc_newline c) (skipn (Z.to_nat (o_pos o)) (n_data i)) txt ->
  forallb reading ops = true -> run_tops guess c ops (text_fresh f size w) = (outs, t') ->
  exists t1, t_seek guess c (o_pos o) 0 t' = (Ok (o_pos o), t1)
    /\ forall ops1 outs1 t2, forallb reading ops1 = true -> run_tops guess c ops1 t1 = (outs1, t2) ->
       exists s, mruns (tc_newline c) (false, mkTV txt [(o_pos o, txt)] true true) ops1 outs1 s.
Proof.
  intros guess c f size w o i m txt ops outs t' S Gs Tx Hr E.
  assert (EX : extends (tc_codec c) (utf8_marking m)) by (rewrite (us_codec _ _ _ _ _ _ S); apply utf8_marking_extends).
  pose proof (text_stands c (utf8_marking m) f size w o i txt (utf8_text _ _ _ _ _ _ _ _ S Tx)) as St.
  destruct (mruns_refines guess c (utf8_marking m) (n_data i) EX (utf8_marking_good m) (us_small _ _ _ _ _ _ S) Gs ops _ _ outs t' St (reading_certain _ _ _ _ Hr) E) as (s1 & M1 & S1).
  assert (Hin : In (o_pos o, txt) (tv_known (snd s1))).
  { assert (K0 : In (o_pos o, txt) (tv_known (snd (false, mkTV txt [(o_pos o, txt)] true false)))) by (left; reflexivity). revert K0 Hr M1. clear.
    generalize (false, mkTV txt [(o_pos o, txt)] true false). intros s K0 Hr M. induction M as [|s op out s1 ops outs s2 Sp M IH]; [exact K0|].
    cbn [forallb] in Hr. apply andb_true_iff in Hr as [H1 H2]. apply IH; [|exact H2]. inversion Sp; subst; cbn [snd tv_known] in *; try exact K0; try (now right).
    match goal with H : tastep _ _ _ _ _ |- _ => inversion H; subst end; cbn [tv_known] in *; auto; now right. }
  destruct S1 as ((p & B) & Kn & _).
  destruct (t_seek_bst (with_codec c (utf8_marking m)) (utf8_marking_good m) (n_data i) (us_small _ _ _ _ _ _ S) guess (o_pos o) txt t' p B (Kn _ _ Hin)) as (t1 & p1 & r1 & E1 & R1 & L1).
  assert (Bp : 0 <= o_pos o < 2 ^ 64).
  { pose proof (us_pos _ _ _ _ _ _ S). destruct (setting_rep _ _ _ _ _ _ (us_setting _ _ _ _ _ _ S)) as (R & _ & _). pose proof (rp_nn _ _ _ _ _ _ R). lia. }
  rewrite (t_seek_byte c (utf8_marking m) EX guess (o_pos o) Bp) in E1. exists t1. split; [exact E1|]. intros ops1 outs1 t2 Hr1 E2.
  assert (K0 : forall n r, In (n, r) [(o_pos o, txt)] -> told (with_codec c (utf8_marking m)) (n_data i) n r) by (intros n r [H|[]]; injection H as <- <-; exact (Kn _ _ Hin)).
  assert (St1 : stands c (with_codec c (utf8_marking m)) (n_data i) t1 (false, mkTV txt [(o_pos o, txt)] true true)).
  { split; [exists p1; exact (tr_b _ _ _ _ _ _ _ R1)|]. cbn [fst snd tv_known]. split; [exact K0|]. intros _. exists p1, r1. auto. }
  destruct (mruns_refines guess c (utf8_marking m) (n_data i) EX (utf8_marking_good m) (us_small _ _ _ _ _ _ S) Gs ops1 _ _ outs1 t2 St1 (reading_certain _ _ _ _ Hr1) E2) as (s2 & M2 & _). eauto.
Qed.

(** * Examples and refutations *)
(** "ab", a malformed byte, "cd", with a buffer of 2 bytes. *)
Definition spoilt_demo (k : bkind) : tstate := demo_text k 2 [97; 98; 255; 99; 100; 101] [].
Example C80_example :
  fst (run_tops exact_guess (conf BReader NlNone) [ToRead (Some 1); ToTell; ToRead (Some 1); ToTell; ToRead (Some 1); ToSeek 0; ToRead (Some 2); ToEnd; ToRead None; ToSeek 2; ToRead None]
         (spoilt_demo BReader))
  = [TText [97]; TInt 1; TText [98]; TInt 2; TErr EValue; TInt 0; TText [97; 98]; TInt 6; TText []; TInt 2; TErr EValue].
Proof. vm_compute. reflexivity. Qed.
Example C80_setting_inhabited :
  let '(f, w) := demo_open "f" true false false (demo [97; 98; 255; 99; 100; 101] [] [] []) in
  exists o i, utf8_setting (conf BReader NlNone) f 2 w o i
    /\ spoilt (skipn (Z.to_nat (o_pos o)) (n_data i)) [97; 98] /\ newlines_read NlNone [97; 98] [97; 98].
Proof.
  cbn -[Z.of_nat utf8 spoilt]. eexists _, _. split; [|split].
  - constructor; [reflexivity
      |constructor; [constructor; try reflexivity; cbn; lia|reflexivity|lia|cbn; auto|split; [intros X; now elim X|discriminate]|intros e []]
      |discriminate|reflexivity|reflexivity].
  - exists [97; 98], [255; 99; 100; 101]. split; [reflexivity|]. split; [vm_compute; reflexivity|]. split; [discriminate|]. intros ch n. vm_compute. discriminate.
  - exists [PChar 97; PChar 98]. split; [|reflexivity]. apply (ps_cons (PChar 97) [98]); [cbn; lia|discriminate|]. apply (ps_cons (PChar 98) []); [cbn; lia|discriminate|]. constructor.
Qed.

(** C81 is false: a read that fails has lost text that stands before the malformed byte (here "a"), and the next one goes on behind the chunk, as if
    nothing were missing. *)
Theorem C81_errors_lose_nothing_refuted : exists c t t1 t2,
  content (b_w (t_b t)) (1, 10) = [97; 255; 98; 99] /\ t_read c (Some 1) t = (Err EValue, t1) /\ t_read c (Some 1) t1 = (Ok [98], t2).
Proof.
  exists (conf BReader NlLf), (demo_text BReader 2 [97; 255; 98; 99] []). eexists _, _.
  split; [reflexivity|]. split; [vm_compute; reflexivity|]. vm_compute. reflexivity.
Qed.
(** read() that fails also drops the characters that were decoded already. *)
Theorem C81_decoded_text_lost_refuted : exists c t t1 t2 t3,
  content (b_w (t_b t)) (1, 10) = [97; 98; 255] /\ t_read c (Some 1) t = (Ok [97], t1) /\ t_read c None t1 = (Err EValue, t2)
  /\ t_read c None t2 = (Ok [], t3).
Proof.
  exists (conf BReader NlLf), (demo_text BReader 2 [97; 98; 255] []). eexists _, _, _.
  split; [reflexivity|]. split; [vm_compute; reflexivity|]. split; [vm_compute; reflexivity|]. vm_compute. reflexivity.
Qed.
(** So a program that carries on after the error reads a text with a hole. *)
Theorem C81_hole_refuted : exists c t,
  fst (run_tops exact_guess c [ToReadline None; ToReadline None; ToReadline None] t) = [TErr EValue; TText [99; 10]; TText []]
  /\ content (b_w (t_b t)) (1, 10) = [97; 10; 98; 10; 255; 10; 99; 10].
Proof.
  exists (conf BReader NlLf), (demo_text BReader 6 [97; 10; 98; 10; 255; 10; 99; 10] []). split; vm_compute; reflexivity.
Qed.

Print Assumptions C80_text_until_error.
Print Assumptions C80_utf8.
Print Assumptions C80_only_real_text.
Print Assumptions C80_read_all_fails.
Print Assumptions C81_seek_back_partial.
Print Assumptions C81_errors_lose_nothing_refuted.
Print Assumptions C81_decoded_text_lost_refuted.
Print Assumptions C81_hole_refuted.
