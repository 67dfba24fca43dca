(** C69: the positions of text streams are byte positions, for UTF-8 and latin-1 without carriage returns to translate. *)
From Coq Require Import ZArith Ascii String List Bool Lia.
From Verif Require Import M_Base M_Modes M_Registry M_Kernel M_World M_Raw M_Buffered M_Newline M_Text S_Bytes S_Raw S_Demo S_Buffered S_Newline S_Text S_Codecs S_Plain S_Confined
  P_Bytes P_Raw P_Buffered P_BufOps P_Newline P_Decode P_TextBase P_TextRead P_TextLine P_TextTell P_TextPlain P_Codecs C_Buffered C_Text C_Confined C_TextWrite.
Import ListNotations.
Open Scope Z_scope.

(** * The two encodings *)
Section Simple.
  Variable next : list Z -> nxt.
  Variable enc1 : Z -> option (list Z).
  Hypothesis next_nil : next [] = NMore.
  Hypothesis next_char : forall l c n, next l = NChar c n -> (1 <= n <= length l)%nat.
  Hypothesis next_app : forall l y c n, next l = NChar c n -> next (l ++ y) = NChar c n.
  Hypothesis next_bad : forall l y, next l = NBad -> next (l ++ y) = NBad.
  Hypothesis next_min : forall l y c n, next l = NMore -> next (l ++ [y]) = NChar c n -> n = S (length l).
  Hypothesis next_13 : forall l n, next l = NChar 13 n -> In 13 (firstn n l).
  Notation run := (decode_all next).

  Lemma run_more : forall m l, (length l <= m)%nat -> forall o b, run (length l) l false = Some (o, b) -> next b = NMore.
  Proof.
    induction m as [|m IH]; intros l Hl o b H; (destruct l as [|z l]; [injection H as <- <-; exact next_nil|]); [cbn in Hl; lia|].
    rewrite (run_step next next_char) in H. destruct (next (z :: l)) as [| |x n] eqn:E; [injection H as <- <-; exact E|discriminate H|].
    pose proof (next_char _ _ _ E) as Hn. pose proof (skipn_length n (z :: l)) as Ls.
    destruct (run (length (skipn n (z :: l))) (skipn n (z :: l)) false) as [[o' b']|] eqn:R; [|discriminate H]. injection H as <- <-.
    apply (IH (skipn n (z :: l)) ltac:(cbn [length] in *; lia) o' b' R).
  Qed.
  Lemma run_final : forall m l, (length l <= m)%nat -> forall o b, run (length l) l true = Some (o, b) -> run (length l) l false = Some (o, b).
  Proof.
    induction m as [|m IH]; intros l Hl o b H; (destruct l as [|z l]; [exact H|]); [cbn in Hl; lia|].
    rewrite (run_step next next_char) in *. destruct (next (z :: l)) as [| |x n] eqn:E; [discriminate H|discriminate H|].
    pose proof (next_char _ _ _ E) as Hn. pose proof (skipn_length n (z :: l)) as Ls.
    destruct (run (length (skipn n (z :: l))) (skipn n (z :: l)) true) as [[o' b']|] eqn:R; [|discriminate H]. injection H as <- <-.
    rewrite (IH (skipn n (z :: l)) ltac:(cbn [length] in *; lia) o' b' R). reflexivity.
  Qed.
  Lemma run_13 : forall m l, (length l <= m)%nat -> forall fin o b, run (length l) l fin = Some (o, b) -> In 13 o -> In 13 l.
  Proof.
    induction m as [|m IH]; intros l Hl fin o b H I13; (destruct l as [|z l]; [injection H as <- <-; destruct I13|]); [cbn in Hl; lia|].
    rewrite (run_step next next_char) in H. destruct (next (z :: l)) as [| |x n] eqn:E; [destruct fin; [discriminate H|]; injection H as <- <-; destruct I13|discriminate H|].
    pose proof (next_char _ _ _ E) as Hn. pose proof (skipn_length n (z :: l)) as Ls.
    destruct (run (length (skipn n (z :: l))) (skipn n (z :: l)) fin) as [[o' b']|] eqn:R; [|discriminate H]. injection H as <- <-.
    rewrite <- (firstn_skipn n (z :: l)). apply in_or_app. destruct I13 as [->|I13]; [left; now apply next_13|right].
    apply (IH (skipn n (z :: l)) ltac:(cbn [length] in *; lia) fin o' b' R I13).
  Qed.
  Lemma simple_plain : bytewise_codec (simple_codec next enc1).
  Proof.
    constructor; cbn [simple_codec cd_decode fst snd app].
    - intros x fin out b f. destruct (run (length x) x fin) as [[o b']|]; [|discriminate]. intros H. now injection H as _ _ <-.
    - intros x out s y out' b' f'. destruct (run (length x) x false) as [[o b]|] eqn:E; [|discriminate]. intros H. injection H as <- <-. cbn [fst snd].
      pose proof (run_more _ _ (le_n _) _ _ E) as M. destruct (b ++ [y]) as [|z l] eqn:Eb; [destruct b; discriminate|]. rewrite (run_step next next_char). rewrite <- Eb in *.
      destruct (next (b ++ [y])) as [| |a n] eqn:En; [|discriminate|].
      + intros H. injection H as <- <- <-. now left.
      + rewrite (next_min _ _ _ _ M En). rewrite skipn_all2 by (rewrite app_length; cbn; lia). cbn [length decode_all]. intros H. injection H as <- <- <-. right. eauto.
    - intros x out s. destruct (run (length x) x true) as [[o b]|] eqn:E; [|discriminate]. intros H. injection H as <- <-. rewrite (run_final _ _ (le_n _) _ _ E). eauto.
    - intros x fin out s. destruct (run (length x) x fin) as [[o b]|] eqn:E; [|discriminate]. intros H. injection H as <- <-. now apply (run_13 _ _ (le_n _) _ _ _ E).
  Qed.

  (** Bytes that can be decoded are those of the text. *)
  Hypothesis next_back : forall l c n, (forall x, In x l -> 0 <= x <= 255) -> next l = NChar c n -> enc1 c = Some (firstn n l).
  Lemma run_back : forall m l, (length l <= m)%nat -> (forall x, In x l -> 0 <= x <= 255) -> forall o b, run (length l) l true = Some (o, b) -> encode_all enc1 o = Some l.
  Proof.
    induction m as [|m IH]; intros l Hl B o b H; (destruct l as [|z l]; [injection H as <- <-; reflexivity|]); [cbn in Hl; lia|].
    rewrite (run_step next next_char) in H. destruct (next (z :: l)) as [| |x n] eqn:E; [discriminate H|discriminate H|].
    pose proof (next_char _ _ _ E) as Hn. pose proof (skipn_length n (z :: l)) as Ls.
    destruct (run (length (skipn n (z :: l))) (skipn n (z :: l)) true) as [[o' b']|] eqn:R; [|discriminate H]. injection H as <- <-.
    cbn [encode_all]. rewrite (next_back _ _ _ B E). rewrite (IH (skipn n (z :: l)) ltac:(cbn [length] in *; lia)) with (2 := R).
    - f_equal. apply firstn_skipn.
    - intros y Hy. apply B. rewrite <- (firstn_skipn n (z :: l)). apply in_or_app. now right.
  Qed.
End Simple.

Lemma latin1_char l c n : latin1_next l = NChar c n -> (1 <= n <= length l)%nat.
Proof. destruct l; [discriminate|]. intros H. injection H as <- <-. cbn. lia. Qed.
Lemma latin1_plain : bytewise_codec latin1.
Proof.
  apply simple_plain; unfold latin1_next.
  - reflexivity.
  - exact latin1_char.
  - intros [|a l] y c n H X; [|discriminate H]. cbn in X. now injection X as _ <-.
  - intros [|a l] n H; [discriminate H|]. injection H as -> <-. now left.
Qed.
Lemma utf8_min l y c n : utf8_next l = NMore -> utf8_next (l ++ [y]) = NChar c n -> n = S (length l).
Proof.
  unfold utf8_next. destruct l as [|a [|b [|d [|e l]]]]; cbv zeta; cbn [app length];
  repeat match goal with |- context [if ?x then _ else _] => destruct x end; intros H1 H; try discriminate H1; try discriminate H; now injection H as _ <-.
Qed.
Lemma utf8_13 l n : utf8_next l = NChar 13 n -> In 13 (firstn n l).
Proof.
  unfold utf8_next, tail. destruct l as [|a [|b [|d [|e l]]]]; cbv zeta;
  repeat match goal with |- context [if within ?x ?y ?z then _ else _] => let E := fresh in destruct (within x y z) eqn:E; [apply within_iff in E|] end;
  intros X; try discriminate X; injection X as X <-; try (subst; now left); exfalso;
  repeat match goal with H : context [if ?x =? ?y then _ else _] |- _ => destruct (Z.eqb_spec x y) end; lia.
Qed.
Lemma utf8_plain : bytewise_codec utf8.
Proof.
  apply simple_plain; [reflexivity|exact utf8_next_char|exact utf8_min|exact utf8_13].
Qed.

(** [cd_decode] from the start gives the text whose bytes these are. *)
Definition reversible (cd : codec) : Prop := forall x out s, (forall y, In y x -> 0 <= y <= 255) ->
  cd_decode cd ([], 0) x true = Some (out, s) -> exists e, cd_encode cd 0 out = Some (x, e).
Lemma latin1_reversible : reversible latin1.
Proof.
  intros x out s B. unfold latin1, simple_codec. cbn [cd_decode cd_encode fst snd app]. destruct (decode_all latin1_next (length x) x true) as [[o b]|] eqn:E; [|discriminate].
  intros H. injection H as <- <-. rewrite (run_back latin1_next latin1_enc1 latin1_char) with (m := length x) (l := x) (b := b); eauto.
  intros [|a l] c n Hb H; [discriminate H|]. injection H as <- <-. unfold latin1_enc1. rewrite within_true; [reflexivity|]. apply Hb. now left.
Qed.
Lemma enc_two h l : 2 <= h <= 31 -> 0 <= l < 64 -> utf8_enc1 (64 * h + l) = Some [192 + h; 128 + l].
Proof.
  intros Hh Hl. unfold utf8_enc1. rewrite (within_false 0 127), (within_true 128 2047) by lia. do 2 f_equal; [|f_equal]; Z.div_mod_to_equations; lia.
Qed.
Lemma enc_three h m l : 0 <= h <= 15 -> 0 <= m < 64 -> 0 <= l < 64 -> (h = 0 -> 32 <= m) -> (h = 13 -> m <= 31) ->
  utf8_enc1 (4096 * h + 64 * m + l) = Some [224 + h; 128 + m; 128 + l].
Proof.
  intros Hh Hm Hl H0 H13. unfold utf8_enc1. rewrite (within_false 0 127), (within_false 128 2047), (within_true 2048 65535), (within_false 55296 57343) by lia.
  assert (E1 : (4096 * h + 64 * m + l) / 64 = 64 * h + m) by (Z.div_mod_to_equations; lia). rewrite E1.
  do 2 f_equal; [|f_equal; [|f_equal]]; Z.div_mod_to_equations; lia.
Qed.
Lemma enc_four h m l r : 0 <= h <= 4 -> 0 <= m < 64 -> 0 <= l < 64 -> 0 <= r < 64 -> (h = 0 -> 16 <= m) -> (h = 4 -> m <= 15) ->
  utf8_enc1 (262144 * h + 4096 * m + 64 * l + r) = Some [240 + h; 128 + m; 128 + l; 128 + r].
Proof.
  intros Hh Hm Hl Hr H0 H4. unfold utf8_enc1. rewrite (within_false 0 127), (within_false 128 2047), (within_false 2048 65535), (within_true 65536 1114111) by lia.
  assert (E1 : (262144 * h + 4096 * m + 64 * l + r) / 64 = 4096 * h + 64 * m + l) by (Z.div_mod_to_equations; lia). rewrite E1.
  assert (E2 : (262144 * h + 4096 * m + 64 * l + r) / 4096 = 64 * h + m) by (Z.div_mod_to_equations; lia). rewrite E2.
  do 2 f_equal; [|f_equal; [|f_equal; [|f_equal]]]; Z.div_mod_to_equations; lia.
Qed.
Lemma utf8_back l c n : (forall x, In x l -> 0 <= x <= 255) -> utf8_next l = NChar c n -> utf8_enc1 c = Some (firstn n l).
Proof.
  intros _ X. unfold utf8_next, tail in X. destruct l as [|a r]; [discriminate|].
  destruct (within 0 127 a) eqn:E1; [injection X as <- <-; unfold utf8_enc1; now rewrite E1|].
  destruct (within 194 223 a) eqn:E2.
  { apply within_iff in E2. destruct r as [|b r]; [discriminate|]. destruct (within 128 191 b) eqn:Eb; [|discriminate]. apply within_iff in Eb. injection X as <- <-.
    cbn [firstn]. replace ((a - 192) * 64 + (b - 128)) with (64 * (a - 192) + (b - 128)) by lia. rewrite enc_two by lia. do 2 f_equal; [|f_equal]; lia. }
  destruct (within 224 239 a) eqn:E3.
  { apply within_iff in E3. cbv zeta in X. destruct r as [|b r]; [discriminate|]. destruct (within _ _ b) eqn:Eb; [|discriminate]. apply within_iff in Eb.
    destruct r as [|d r]; [discriminate|]. destruct (within 128 191 d) eqn:Ed; [|discriminate]. apply within_iff in Ed. injection X as <- <-.
    cbn [firstn]. replace ((a - 224) * 4096 + (b - 128) * 64 + (d - 128)) with (4096 * (a - 224) + 64 * (b - 128) + (d - 128)) by lia.
    rewrite enc_three by (destruct (Z.eqb_spec a 224), (Z.eqb_spec a 237); lia). do 2 f_equal; [|f_equal; [|f_equal]]; lia. }
  destruct (within 240 244 a) eqn:E4; [|discriminate].
  apply within_iff in E4. cbv zeta in X. destruct r as [|b r]; [discriminate|]. destruct (within _ _ b) eqn:Eb; [|discriminate]. apply within_iff in Eb.
  destruct r as [|d r]; [discriminate|]. destruct (within 128 191 d) eqn:Ed; [|discriminate]. apply within_iff in Ed.
  destruct r as [|e r]; [discriminate|]. destruct (within 128 191 e) eqn:Ee; [|discriminate]. apply within_iff in Ee. injection X as <- <-.
  cbn [firstn]. replace ((a - 240) * 262144 + (b - 128) * 4096 + (d - 128) * 64 + (e - 128)) with (262144 * (a - 240) + 4096 * (b - 128) + 64 * (d - 128) + (e - 128)) by lia.
  rewrite enc_four by (destruct (Z.eqb_spec a 240), (Z.eqb_spec a 244); lia). do 2 f_equal; [|f_equal; [|f_equal; [|f_equal]]]; lia.
Qed.
Lemma utf8_reversible : reversible utf8.
Proof.
  intros x out s B. unfold utf8, simple_codec. cbn [cd_decode cd_encode fst snd app]. destruct (decode_all utf8_next (length x) x true) as [[o b]|] eqn:E; [|discriminate].
  intros H. injection H as <- <-. rewrite (run_back utf8_next utf8_enc1 utf8_next_char) with (m := length x) (l := x) (b := b); eauto using utf8_back.
Qed.

(** * The refinement *)
Section Run.
  Variables (guess : nat -> nat -> nat -> Z) (c : tconf) (C : list Z).
  Hypotheses (G : good_codec (tc_codec c)) (PC : bytewise_codec (tc_codec c)) (Sm : len C < 2 ^ 59) (Gs : sane guess)
    (NC : readuniversal c = false \/ ~ In CR C).
  Notation cur := (cursor c C guess).
  Notation step := (pstep (tc_codec c) (tc_newline c) C).
  Notation bnd m := (exists r, at_byte c C m r).

  Lemma at_rest n r : at_byte c C n r -> rest (tc_codec c) (tc_newline c) C n r.
  Proof. intros [H F]. split; [lia|]. now apply fut_text. Qed.

  Lemma tell_cursor t n : cur t (n, true) -> exists t', t_tell guess c t = (Ok n, t') /\ cur t' (n, true).
  Proof.
    intros (p & r1 & R & P & A & E). cbn [fst snd] in *. destruct (tell_plain c G PC C Sm NC guess Gs _ _ _ R P) as (m & b' & Et & Ev & _ & _ & R').
    rewrite (E eq_refl) in Ev. injection Ev as ->. exists (set_b t b'). split; [exact Et|]. exists p, r1. cbn [fst snd]. split; [exact R'|].
    split; [exact P|]. split; [exact A|]. intros _. exact (E eq_refl).
  Qed.
  Lemma seek_cursor t n tel m : cur t (n, tel) -> bnd m -> exists t', t_seek guess c m 0 t = (Ok m, t') /\ cur t' (m, true).
  Proof.
    intros (p & r1 & R & P & _) [r A]. cbn [fst snd] in *. pose proof A as [Hm _].
    destruct (seek_fields c G C guess _ _ _ _ _ m R Hm) as (t1 & E1 & B1 & Hc & Hu & P1 & Si).
    destruct (t_seek_ok c G C Sm guess m r _ _ _ _ _ R (at_told c C _ _ A)) as (t2 & p2 & r2 & E2 & R2 & L2). rewrite E1 in E2. injection E2 as <-.
    pose proof (bst_fun C _ _ _ _ B1 (tr_b _ _ _ _ _ _ _ R2)) as <-. pose proof (trep_fresh c C _ _ _ _ _ R2 Hc) as R3.
    exists t1. split; [exact E1|]. exists m, r2. cbn [fst snd]. split; [exact R3|]. split; [exact P1|]. split; [rewrite L2; exact A|].
    intros _. eapply tell_empty; eauto.
  Qed.
  Lemma end_at : at_byte c C (len C) [].
  Proof.
    pose proof (len_nonneg C). assert (2 ^ 59 < 2 ^ 63) by reflexivity. split; [lia|]. rewrite from_end by lia. rewrite (sput_0 c). now apply fut_end.
  Qed.
  Lemma end_cursor t n tel : cur t (n, tel) -> exists t', t_seek guess c 0 2 t = (Ok (len C), t') /\ cur t' (len C, true).
  Proof.
    intros (p & r1 & R & P & _). cbn [fst snd] in *. destruct (end_fields c G C guess _ _ _ _ _ R) as (t1 & E1 & B1 & Hc & Hu & P1 & Si).
    destruct (t_seek_end_ok c G C Sm guess _ _ _ _ _ R) as (m & t2 & p2 & E2 & R2 & L2 & _). rewrite E1 in E2. injection E2 as <- <-.
    pose proof (bst_fun C _ _ _ _ B1 (tr_b _ _ _ _ _ _ _ R2)) as <-. pose proof (trep_fresh c C _ _ _ _ _ R2 Hc) as R3.
    exists t1. split; [exact E1|]. exists (len C), []. cbn [fst snd]. split; [exact R3|]. split; [exact P1|]. split; [rewrite L2; exact end_at|].
    intros _. eapply tell_empty; eauto. intros fl inp X. congruence.
  Qed.

  Lemma step_plain op t s out t' : cur t s -> (forall m, op = ToSeek m -> bnd m) -> run_top guess c op t = (out, t') ->
    exists s', step s op out s' /\ cur t' s' /\ (match op, out with ToTell, TInt n | ToEnd, TInt n => bnd n | _, _ => True end).
  Proof.
    intros Cu Hk E. destruct s as [n tel]. pose proof Cu as (p & r1 & R & P & A & V). cbn [fst snd] in *. pose proof (at_rest _ _ A) as A0.
    destruct op as [k|k| | |m|]; cbn [run_top] in E.
    - destruct (t_read_ok c G C Sm k _ _ _ _ _ R) as (t1 & p1 & r2 & E1 & R1 & L1). pose proof (pl_read c G PC C Sm NC _ _ _ _ _ _ _ _ R P E1) as P1.
      rewrite E1 in E. injection E as <- <-. destruct (cursor_any c G PC C Sm NC guess Gs _ _ _ _ _ _ _ R1 P1 A L1) as (n' & C1 & A1). rewrite L1 in A1.
      exists (n', tel). split; [|split; [exact C1|exact Logic.I]]. eapply PS_read; [exact A0|now apply at_rest].
    - destruct (t_readline_ok c G C Sm k _ _ _ _ _ R) as (l & t1 & p1 & r2 & E1 & FL & R1 & L1 & _). pose proof (pl_readline c G PC C Sm NC _ _ _ _ _ _ _ _ R P E1) as P1.
      rewrite E1 in E. injection E as <- <-. destruct (cursor_any c G PC C Sm NC guess Gs _ _ _ _ _ _ _ R1 P1 A L1) as (n' & C1 & A1). rewrite L1 in A1.
      exists (n', tel). split; [|split; [exact C1|exact Logic.I]]. eapply PS_readline; [exact A0|exact FL|now apply at_rest].
    - destruct (t_next_ok c G C Sm _ _ _ _ _ R) as [(l & t1 & p1 & r2 & E1 & FL & Nl & R1 & L1)|(t1 & p1 & E1 & Hl & R1 & L1)];
      pose proof (pl_next c G PC C Sm NC _ _ _ _ _ _ _ R P E1) as P1; rewrite E1 in E; injection E as <- <-.
      + destruct (cursor_any c G PC C Sm NC guess Gs _ _ _ _ _ _ _ R1 P1 A L1) as (n' & C1 & A1). rewrite L1 in A1.
        exists (n', false). split; [|split; [exact C1|exact Logic.I]]. eapply PS_next; [exact A0|exact FL|exact Nl|now apply at_rest].
      + destruct (cursor_on c G PC C Sm NC guess Gs _ _ _ R1 P1) as (n' & C1 & A1). rewrite L1 in A1. rewrite Hl in A0.
        exists (n', true). split; [|split; [exact C1|exact Logic.I]]. apply PS_stop; [exact A0|now apply at_rest].
    - destruct tel.
      + destruct (tell_cursor _ _ Cu) as (t1 & E1 & C1). rewrite E1 in E. injection E as <- <-. exists (n, true). split; [apply PS_tell|]. split; [exact C1|eauto].
      + rewrite (t_tell_off c C guess _ _ _ _ R) in E. injection E as <- <-. exists (n, false). split; [apply PS_tell_disabled|]. split; [exact Cu|exact Logic.I].
    - destruct (seek_cursor _ _ _ m Cu (Hk m eq_refl)) as (t1 & E1 & C1). rewrite E1 in E. injection E as <- <-. exists (m, true). split; [apply PS_seek|]. split; [exact C1|exact Logic.I].
    - destruct (end_cursor _ _ _ Cu) as (t1 & E1 & C1). rewrite E1 in E. injection E as <- <-. exists (len C, true). split; [apply PS_end|]. split; [exact C1|]. exists []. exact end_at.
  Qed.
  Lemma run_plain : forall ops t s outs t' K, cur t s -> (forall m, In m K -> bnd m) -> seeks_known K (combine ops outs) -> run_tops guess c ops t = (outs, t') ->
    exists s', pruns (tc_codec c) (tc_newline c) C s ops outs s' /\ cur t' s'.
  Proof.
    induction ops as [|op ops IH]; intros t s outs t' K Cu HK Hk E; cbn [run_tops] in E.
    - injection E as <- <-. exists s. split; [constructor|exact Cu].
    - destruct (run_top guess c op t) as [out t1] eqn:E1. destruct (run_tops guess c ops t1) as [outs' t2] eqn:E2. injection E as <- <-. cbn [combine] in Hk.
      destruct (step_plain op t s out t1 Cu) as (s1 & A1 & C1 & X1); [intros m ->; cbn [seeks_known] in Hk; now apply HK|exact E1|].
      assert (Q : exists K1, (forall m, In m K1 -> bnd m) /\ seeks_known K1 (combine ops outs')).
      { destruct op, out; cbn [seeks_known] in Hk; try (exists K; split; [exact HK|apply Hk]); (exists (n :: K); split; [|exact Hk]); intros m [<-|H]; auto. }
      destruct Q as (K1 & H1 & H2). destruct (IH t1 s1 outs' t2 K1 C1 H1 H2 E2) as (s2 & A2 & C2). exists s2. split; [econstructor; eauto|exact C2].
  Qed.
End Run.

(** A stream in the setting of C47, in a plain encoding, without carriage returns to translate. *)
Record plain_setting (c : tconf) (f : rawio) (size : Z) (w : world) (o : ofd) (i : inode) (txt : list Z) : Prop := mkPS {
  ps_text : text_setting c f size w o i txt;
  ps_codec : bytewise_codec (tc_codec c);
  ps_lines : plain_lines (tc_newline c) (n_data i) }.
Lemma plain_nc c f size w o i txt : plain_setting c f size w o i txt -> readuniversal c = false \/ ~ In CR (n_data i).
Proof. intros [_ _ L]. unfold plain_lines, readuniversal in *. destruct (tc_newline c); auto. Qed.
Lemma plain_cursor guess c f size w o i txt : plain_setting c f size w o i txt -> cursor c (n_data i) guess (text_fresh f size w) (o_pos o, true).
Proof.
  intros S. destruct (ps_text _ _ _ _ _ _ _ S) as [St Kn G Sm Ps Tx]. destruct (text_trep _ _ _ _ _ _ _ (ps_text _ _ _ _ _ _ _ S)) as (R & L & Tn).
  pose proof (bst_pos _ _ _ _ (tr_b _ _ _ _ _ _ _ R)) as Pn. exists (o_pos o), txt. cbn [fst snd]. split; [exact R|].
  split; [split; [exists []; now apply init_plain|discriminate]|]. split; [rewrite L; apply told_at; [exact Tn|lia]|]. reflexivity.
Qed.

(** C69: any sequence of reads, tells and seeks behaves like a cursor in the bytes of the file: tell() gives the byte position, always (but
    within an iteration). *)
Theorem C69_positions_are_bytes : forall guess c f size w o i txt ops outs t', plain_setting c f size w o i txt -> sane guess ->
  run_tops guess c ops (text_fresh f size w) = (outs, t') -> seeks_known [o_pos o] (combine ops outs) ->
  exists s, pruns (tc_codec c) (tc_newline c) (n_data i) (o_pos o, true) ops outs s.
Proof.
  intros guess c f size w o i txt ops outs t' S Gs E Hk. pose proof (plain_cursor guess _ _ _ _ _ _ _ S) as Cu. pose proof (plain_nc _ _ _ _ _ _ _ S) as NC.
  destruct S as [[St Kn G Sm Ps Tx] PC _]. assert (HK : forall m, In m [o_pos o] -> exists r, at_byte c (n_data i) m r) by (intros m [<-|[]]; destruct Cu as (p0 & r0 & _ & _ & A0 & _); eauto).
  destruct (run_plain guess c (n_data i) G PC Sm Gs NC ops _ _ outs t' _ Cu HK Hk E) as (s & A & _). eauto.
Qed.
(** Seeks may go to any byte position at which a text begins. *)
Theorem C69_seek_anywhere : forall guess c f size w o i txt ops outs t', plain_setting c f size w o i txt -> sane guess ->
  run_tops guess c ops (text_fresh f size w) = (outs, t') ->
  (forall m, In (ToSeek m) ops -> 0 <= m < 2 ^ 63 /\ exists r, text_of (tc_codec c) (tc_newline c) (skipn (Z.to_nat m) (n_data i)) r) ->
  exists s, pruns (tc_codec c) (tc_newline c) (n_data i) (o_pos o, true) ops outs s.
Proof.
  intros guess c f size w o i txt ops outs t' S Gs E Hk. pose proof (plain_cursor guess _ _ _ _ _ _ _ S) as Cu. pose proof (plain_nc _ _ _ _ _ _ _ S) as NC.
  destruct S as [[St Kn G Sm Ps Tx] PC _].
  set (K := flat_map (fun op => match op with ToSeek m => [m] | _ => [] end) ops).
  assert (HK : forall m, In m K -> exists r, at_byte c (n_data i) m r).
  { intros m H. apply in_flat_map in H as (op & Hin & Hm). destruct op; try contradiction. destruct Hm as [->|[]]. destruct (Hk _ Hin) as [Hn [r Hr]]. exists r. split; [exact Hn|]. now apply text_fut. }
  assert (X : forall ops outs K, (forall m, In (ToSeek m) ops -> In m K) -> seeks_known K (combine ops outs)).
  { clear. induction ops as [|op ops IH]; intros [|out outs] K H; try exact Logic.I. assert (H1 : forall m, In (ToSeek m) ops -> In m K) by (intros m Hm; apply H; now right).
    cbn [combine]. destruct op, out; cbn [seeks_known]; auto; try (apply IH; intros m Hm; right; now apply H1); split; auto; apply H; now left. }
  assert (KK : seeks_known K (combine ops outs)) by (apply X; intros m Hm; apply in_flat_map; exists (ToSeek m); split; [exact Hm|now left]).
  destruct (run_plain guess c (n_data i) G PC Sm Gs NC ops _ _ outs t' K Cu HK KK E) as (s & A & _). eauto.
Qed.
(** In particular, tell() fails only within iterations, seek() never. *)
Corollary C69_errors : forall guess c f size w o i txt ops outs t' e, plain_setting c f size w o i txt -> sane guess ->
  run_tops guess c ops (text_fresh f size w) = (outs, t') -> seeks_known [o_pos o] (combine ops outs) -> In (TErr e) outs ->
  e = EOS 0 /\ In ToNext ops.
Proof.
  intros guess c f size w o i txt ops outs t' e S Gs E Hk He. destruct (C69_positions_are_bytes _ _ _ _ _ _ _ _ _ _ _ S Gs E Hk) as (s & A). clear -A He.
  assert (X : snd (o_pos o, true) = true) by reflexivity.
  assert (Y : e = EOS 0 /\ (snd (o_pos o, true) = true -> In ToNext ops)); [|tauto]. clear X. revert A. generalize (o_pos o, true). intros s0 A.
  induction A as [s0|s0 op out s1 ops outs s2 St A IH]; [destruct He|]. destruct He as [->|He].
  - inversion St; subst. split; [reflexivity|discriminate].
  - specialize (IH He) as [-> IH]. split; [reflexivity|]. intros T. cbn [In]. destruct St; cbn [snd] in *; try (right; apply IH; assumption || reflexivity); left; reflexivity.
Qed.

(** The position is what the rest of the text leaves of the file. *)
Theorem C69_position_of_rest : forall cd nl C n r, cd_d0 cd = 0 -> bytewise_codec cd -> reversible cd -> plain_lines nl C -> (forall x, In x C -> 0 <= x <= 255) ->
  rest cd nl C n r -> n <= len C -> exists b e, cd_encode cd 0 r = Some (b, e) /\ C = firstn (Z.to_nat n) C ++ b /\ n = len C - len b.
Proof.
  intros cd nl C n r D0 PC Rv PL B [Hn (raw & st & D & N)] Hc. rewrite D0 in D. set (x := skipn (Z.to_nat n) C) in *.
  assert (Er : r = raw).
  { unfold newlines_read, plain_lines in *. destruct nl; auto. destruct N as (ps & Pi & ->). rewrite <- (univ_pieces _ _ Pi). apply univ_nocr. intros X. apply PL.
    rewrite <- (firstn_skipn (Z.to_nat n) C). apply in_or_app. right. eapply pc_cr; eauto. }
  subst raw. destruct (Rv x r st) as [e E]; [|exact D|].
  - intros y Hy. apply B. rewrite <- (firstn_skipn (Z.to_nat n) C). apply in_or_app. now right.
  - exists x, e. split; [exact E|]. split; [symmetry; apply firstn_skipn|]. unfold x, len in *. rewrite skipn_length. lia.
Qed.

(** After such a program, outside of iterations: truncate() cuts the file at the position, and reset_buffers() does not change it. *)
Theorem C69_truncate_here : forall guess c f size w o i txt ops outs t', plain_setting c f size w o i txt -> tc_kind c = BRandom -> sane guess ->
  run_tops guess c ops (text_fresh f size w) = (outs, t') -> seeks_known [o_pos o] (combine ops outs) ->
  exists n tel, pruns (tc_codec c) (tc_newline c) (n_data i) (o_pos o, true) ops outs (n, tel)
    /\ (tel = true -> exists t2 i2, t_truncate guess c None t' = (Ok n, t2) /\ w_inodes (b_w (t_b t2)) (o_uid o) = Some i2 /\ resized (n_data i) n (n_data i2)).
Proof.
  intros guess c f size w o i txt ops outs t' S K Gs E Hk. pose proof (plain_cursor guess _ _ _ _ _ _ _ S) as Cu. pose proof (plain_nc _ _ _ _ _ _ _ S) as NC.
  pose proof (on_file_fresh _ _ _ _ _ _ _ (ps_text _ _ _ _ _ _ _ S)) as Of. destruct S as [[St Kn G Sm Ps Tx] PC _].
  assert (HK : forall m, In m [o_pos o] -> exists r, at_byte c (n_data i) m r) by (intros m [<-|[]]; destruct Cu as (p0 & r0 & _ & _ & A0 & _); eauto).
  destruct (run_plain guess c (n_data i) G PC Sm Gs NC ops _ _ outs t' _ Cu HK Hk E) as ([n tel] & A & C1).
  exists n, tel. split; [exact A|]. intros ->. pose proof (on_file_tops _ _ _ _ _ _ _ _ Of E) as O1.
  destruct (tell_cursor guess c _ G PC Sm Gs NC _ _ C1) as (t1 & Et & C2). pose proof (on_file_method guess c TmTell _ _ _ O1) as O2. cbn [run_tmethod] in O2. rewrite Et in O2. cbn [snd] in O2.
  destruct C1 as (p & r1 & R & _ & [Hn _] & _). destruct C2 as (p2 & r2 & R2 & _). cbn [fst snd] in *. destruct O2 as [Or Ou]. pose proof (tr_b _ _ _ _ _ _ _ R2) as B2. rewrite K in B2.
  destruct (truncate_random _ _ _ n f (o_uid o) B2 ltac:(lia) Or Ou) as (b' & i' & E3 & I3 & D3). exists (set_b t1 b'), i'. split; [|split; [exact I3|exact D3]].
  rewrite (truncate_none guess c t' t' n t1 (t_flush_idle _ _ _ _ _ _ R) Et). unfold on_b. rewrite K, E3. reflexivity.
Qed.
Theorem C69_reset_buffers : forall guess c f size w o i txt ops outs t', plain_setting c f size w o i txt -> sane guess ->
  run_tops guess c ops (text_fresh f size w) = (outs, t') -> seeks_known [o_pos o] (combine ops outs) ->
  exists n tel, pruns (tc_codec c) (tc_newline c) (n_data i) (o_pos o, true) ops outs (n, tel)
    /\ (tel = true -> exists t2, t_reset_buffers guess c t' = (Ok tt, t2)
        /\ forall ops2 outs2 t3, run_tops guess c ops2 t2 = (outs2, t3) -> seeks_known [n] (combine ops2 outs2) ->
            exists s, pruns (tc_codec c) (tc_newline c) (n_data i) (n, true) ops2 outs2 s).
Proof.
  intros guess c f size w o i txt ops outs t' S Gs E Hk. pose proof (plain_cursor guess _ _ _ _ _ _ _ S) as Cu. pose proof (plain_nc _ _ _ _ _ _ _ S) as NC.
  destruct S as [[St Kn G Sm Ps Tx] PC _].
  assert (HK : forall m, In m [o_pos o] -> exists r, at_byte c (n_data i) m r) by (intros m [<-|[]]; destruct Cu as (p0 & r0 & _ & _ & A0 & _); eauto).
  destruct (run_plain guess c (n_data i) G PC Sm Gs NC ops _ _ outs t' _ Cu HK Hk E) as ([n tel] & A & C1).
  exists n, tel. split; [exact A|]. intros ->. destruct (tell_cursor guess c _ G PC Sm Gs NC _ _ C1) as (t1 & Et & C2).
  assert (Bn : exists r, at_byte c (n_data i) n r) by (destruct C2 as (p & r1 & _ & _ & X & _); eauto).
  destruct (seek_cursor guess c _ G Sm _ _ _ n C2 Bn) as (t2 & Es & C3). exists t2. split.
  - unfold t_reset_buffers. assert (Es' : t_seek_to c n t1 = (Ok n, t2)).
    { destruct C2 as (p & r1 & R & _). cbn [fst snd] in R. unfold t_seek in Es. unfold bind at 1, t_check_closed at 1 in Es. rewrite (bst_open _ _ _ _ (tr_b _ _ _ _ _ _ _ R)) in Es.
      unfold bind at 1, t_seekable at 1 in Es. rewrite (bst_seekable _ _ _ _ (tr_b _ _ _ _ _ _ _ R)) in Es. exact Es. }
    destruct C1 as (p & r1 & R & _). cbn [fst snd] in R. unfold bind at 1. unfold t_seek. unfold bind at 1, t_check_closed at 1. rewrite (bst_open _ _ _ _ (tr_b _ _ _ _ _ _ _ R)).
    unfold bind at 1, t_seekable at 1. rewrite (bst_seekable _ _ _ _ (tr_b _ _ _ _ _ _ _ R)). change (1 =? 1) with true. change (0 =? 0) with true. cbn [negb]. unfold bind at 1. rewrite Et, Es'. reflexivity.
  - intros ops2 outs2 t3 E2 Hk2. assert (HK2 : forall m, In m [n] -> exists r, at_byte c (n_data i) m r) by (intros m [<-|[]]; exact Bn).
    destruct (run_plain guess c (n_data i) G PC Sm Gs NC ops2 _ _ outs2 t3 _ C3 HK2 Hk2 E2) as (s & A2 & _). eauto.
Qed.

(** The condition on carriage returns is needed: here "a" of "a CR LF b" has been read, and the decoder holds the CR back. *)
Theorem C69_carriage_return_refuted : exists c t s n t', bytewise_codec (tc_codec c) /\ t = demo_text BRandom 2 [97; 13; 10; 98] []
  /\ (s <- t_read c (Some 1) ;; n <- t_tell exact_guess c ;; ret (s, n)) t = (Ok (s, n), t') /\ s = [97] /\ n = 2 ^ 64 + 2.
Proof.
  exists (conf BRandom NlNone), (demo_text BRandom 2 [97; 13; 10; 98] []). eexists _, _, _. split; [exact utf8_plain|]. split; [reflexivity|].
  split; [vm_compute; reflexivity|]. split; reflexivity.
Qed.

Example C69_example : fst (run_tops exact_guess (conf BRandom NlNone) [ToRead (Some 2); ToTell; ToSeek 1; ToTell; ToRead (Some 1); ToTell; ToRead None; ToTell; ToSeek 5; ToRead (Some 1); ToTell] (demo_text BRandom 4096 ([97] ++ smile ++ [99; 100]) []))
  = [TText [97; 128512]; TInt 5; TInt 1; TInt 1; TText [128512]; TInt 5; TText [99; 100]; TInt 7; TInt 5; TText [99]; TInt 6].
Proof. vm_compute. reflexivity. Qed.

Print Assumptions C69_positions_are_bytes.
Print Assumptions C69_seek_anywhere.
Print Assumptions C69_errors.
Print Assumptions C69_position_of_rest.
Print Assumptions C69_truncate_here.
Print Assumptions C69_reset_buffers.
Print Assumptions C69_carriage_return_refuted.
Print Assumptions utf8_plain.
