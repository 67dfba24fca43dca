(** C95: lines of text through a pipe. *)
From Coq Require Import ZArith Ascii String List Bool Lia.
From Verif Require Import M_Base M_Registry M_Kernel M_World M_Raw M_Buffered M_Newline M_Text S_Bytes S_Newline S_Text S_Codecs S_TextFiles S_Pipes M_Pipes S_PipeEnds S_TextPipe M_TextPipe S_Demo
  P_Bytes P_Raw P_Buffered P_Newline P_Decode P_TextPlain P_TextFiles P_Codecs P_Pipes P_TextRead P_TextLine P_TextPipe C_TextOut C_Pipes.
Import ListNotations.
Open Scope Z_scope.
Open Scope list_scope.

Lemma flat_one s : flat_map (fun x => if x =? 10 then [10] else [x]) s = s.
Proof. induction s as [|x s IH]; [reflexivity|]. cbn. rewrite IH. destruct (Z.eqb_spec x 10) as [->|]; reflexivity. Qed.
Lemma plain_written c s : plain_writer c -> to_encode c s = s.
Proof.
  intros (_ & H). rewrite to_encode_eq by (destruct H as [(_ & ->)|[E|E]]; [discriminate|intros X; congruence|intros X; congruence]).
  unfold as_written, line_ending. destruct H as [(-> & ->)|[-> | ->]]; apply flat_one.
Qed.
Lemma line_end_plain c s : plain_writer c -> (line_end c s = true <-> at_once (tc_line_buffering c) s).
Proof.
  intros H. unfold line_end, at_once. rewrite (plain_written c s H), andb_true_iff, orb_true_iff, andb_true_iff, orb_true_iff, !has_char_iff.
  change LF with 10. change CR with 13. intuition.
Qed.

(** The first line of a text whose lines end with "\n". *)
Lemma plain_first c l r : plain_reader c -> (readuniversal c = true -> ~ In CR (l ++ 10 :: r)) -> ~ In 10 l -> first_line (tc_newline c) (l ++ 10 :: r) (l ++ [10]).
Proof.
  intros (_ & Hn) Nc Nl.
  assert (E1 : forall a e r', l ++ 10 :: r = a ++ e ++ r' -> ending (tc_newline c) e -> e = [10]).
  { intros a e r' E He. unfold readuniversal in Nc.
    assert (X : ending NlEmpty e -> tc_newline c = NlEmpty -> e = [10]).
    { intros [X|[X|X]] Y; [exact X| |]; exfalso; rewrite Y in Nc; apply Nc; [reflexivity| |reflexivity|]; rewrite E, X, !in_app_iff; right; left; now left. }
    destruct Hn as [Y|[Y|Y]]; rewrite Y in *; cbn in He; auto. }
  left. exists l, [10], r. split; [reflexivity|]. split; [reflexivity|]. split; [destruct Hn as [->|[-> | ->]]; cbn; auto|]. split.
  - intros a e r' E He. rewrite (E1 _ _ _ E He) in E. destruct (Nat.le_gt_cases (length l) (length a)) as [L|L]; [exact L|]. exfalso.
    destruct (occ_inside l (10 :: r) a [10] r') as [r2 E2]; [exact E|cbn; lia|]. apply Nl. rewrite E2, in_app_iff. right. now left.
  - intros e r' E He. now rewrite (E1 _ _ _ E He).
Qed.
Lemma split_line (s : list Z) : In 10 s -> exists l r, s = l ++ 10 :: r /\ ~ In 10 l.
Proof.
  induction s as [|x s IH]; [intros []|]. intros H. destruct (Z.eq_dec x 10) as [->|N]; [exists [], s; auto|].
  destruct H as [H|H]; [congruence|]. destruct (IH H) as (l & r & -> & Nl). exists (x :: l), r. split; [reflexivity|]. intros [X|X]; auto.
Qed.

Section Lines.
  Variables (cw cr : tconf) (u : uid) (R : Z -> Z -> Prop).
  Hypothesis (Pw : plain_writer cw) (Pr : plain_reader cr) (Cd : tc_codec cr = tc_codec cw) (G : good_codec (tc_codec cr)).
  Hypothesis HR : forall e f s b e', R e f -> cd_encode (tc_codec cw) e s = Some (b, e') ->
    exists f', cd_decode (tc_codec cw) ([], f) b false = Some (s, ([], f')) /\ R e' f'.
  Notation cd := (tc_codec cw).
  Notation lb := (tc_line_buffering cw).

  (** What is encoded is decoded. *)
  Lemma text_decoded e f s b e' : R e f -> cd_encode cd e s = Some (b, e') -> (readuniversal cr = true -> ~ In CR s) ->
    exists f', dstep cr ([], f, false) b false = Some (s, ([], f', false)) /\ R e' f'.
  Proof.
    intros HRe E Nc. destruct (HR _ _ _ _ _ HRe E) as (f' & D & R'). exists f'. split; [|exact R']. unfold dstep. rewrite Cd, D.
    destruct (readuniversal cr) eqn:Hu; [|reflexivity]. unfold nlc. cbn [heldb List.app].
    assert (X : ends_cr s = false). { destruct (ends_cr s) eqn:X; [|reflexivity]. exfalso. apply (Nc eq_refl). apply ends_cr_true in X. rewrite X, in_app_iff. right. now left. }
    rewrite X. cbn [andb]. unfold emit. destruct (readtranslate cr); [|reflexivity]. now rewrite (univ_nocr s (Nc eq_refl)).
  Qed.

  Record linv (P : tpipe) (v : lview) : Prop := mkLinv {
    li_writer : pwriter (set_world (t_b (tp_out P)) (tp_w P)) u;
    li_enc : fst (fst v) = enc_of cw (tp_out P);
    li_text : exists r s r' fb, lrep cr u (in_world (tp_in P) (tp_w P)) r s
      /\ dstep cr s (b_wbuf (t_b (tp_out P))) false = Some (r', ([], fb, false)) /\ R (enc_of cw (tp_out P)) fb
      /\ left (tp_in P) r ++ r' = snd (fst v) ++ snd v /\ (length (snd (fst v)) <= length (left (tp_in P) r))%nat;
    li_return : readuniversal cr = true -> ~ In CR (snd (fst v) ++ snd v) }.

  (** The writer has put [x] into the pipe. *)
  Lemma lrep_grow t w w' r s x rx sx : lrep cr u (in_world t w) r s -> pkept u w w' -> calm w' -> inside w' u = inside w u ++ x ->
    dstep cr s x false = Some (rx, sx) -> lrep cr u (in_world t w') (r ++ rx) sx.
  Proof.
    intros [A B C D E] K Ca I1 D1. split; auto.
    - destruct A as [A1 A2 A3 A4]. constructor; auto. exact (pend_kept _ _ _ _ A1 K).
    - change (front (t_b (in_world t w')) u) with (unread (t_b t) ++ inside w' u). rewrite I1, app_assoc.
      exact (dstep_join cr G _ _ _ _ _ _ _ E D1).
  Qed.

  (** The calls of the writer, after which [b] more bytes are under way, for the text [s]. *)
  Lemma writer_moves P e f h t' x b s e' : linv P (e, f, h) -> calm (b_w (t_b t')) -> wkept u (set_world (t_b (tp_out P)) (tp_w P)) (t_b t') ->
    inside (b_w (t_b t')) u = inside (tp_w P) u ++ x -> x ++ b_wbuf (t_b t') = b_wbuf (t_b (tp_out P)) ++ b -> enc_of cw t' = e' ->
    (forall fb, R e fb -> exists fb', dstep cr ([], fb, false) b false = Some (s, ([], fb', false)) /\ R e' fb') ->
    (readuniversal cr = true -> ~ In CR s) ->
    linv (mkTPipe t' (tp_in P) (b_w (t_b t'))) (e', f, h ++ s) /\ (b_wbuf (t_b t') = [] -> linv (mkTPipe t' (tp_in P) (b_w (t_b t'))) (e', f ++ h ++ s, [])).
  Proof.
    intros [W En (r & s0 & r' & fb & Lr & D & HRe & T & L) Nc] Ca K I1 X En' HD Ns. cbn [fst snd] in *. subst e.
    destruct (HD _ HRe) as (fb' & D1 & HRe'). pose proof (dstep_join cr G _ _ _ _ _ _ _ D D1) as D2. rewrite <- X in D2.
    destruct (dstep_cut cr G _ _ _ _ _ D2) as (rx & sx & r2 & D3 & D4 & Er).
    assert (K' : pkept u (tp_w P) (b_w (t_b t'))) by apply K.
    pose proof (lrep_grow _ _ _ _ _ _ _ _ Lr K' Ca I1 D3) as Lr'.
    assert (W' : pwriter (set_world (t_b t') (b_w (t_b t'))) u). { pose proof (wkept_writer _ _ _ W K) as [A B C]. constructor; auto. }
    assert (Tx : left (tp_in P) (r ++ rx) ++ r2 = f ++ h ++ s).
    { unfold left in *. rewrite !app_assoc, <- T, <- !app_assoc, <- Er, !app_assoc. reflexivity. }
    assert (Lx : length (left (tp_in P) (r ++ rx)) = (length (left (tp_in P) r) + length rx)%nat) by (unfold left; rewrite !app_length; lia).
    assert (Nx : readuniversal cr = true -> ~ In CR (f ++ h ++ s)).
    { intros Hu. rewrite app_assoc, in_app_iff. intros [Y|Y]; [exact (Nc Hu Y)|exact (Ns Hu Y)]. }
    split.
    - constructor; cbn [tp_out tp_in tp_w fst snd]; auto. exists (r ++ rx), sx, r2, fb'. split; [exact Lr'|]. split; [exact D4|]. split; [now rewrite En'|]. split; [exact Tx|lia].
    - intros Wb. constructor; cbn [tp_out tp_in tp_w fst snd]; auto; [|rewrite app_nil_r; exact Nx].
      exists (r ++ rx), sx, r2, fb'. split; [exact Lr'|]. split; [exact D4|]. split; [now rewrite En'|]. rewrite app_nil_r. split; [exact Tx|].
      rewrite Wb in D4. pose proof (dstep_idem cr G _ _ _ _ D3) as Id. unfold idem in Id. rewrite Id in D4. injection D4 as <- _.
      rewrite app_nil_r in Tx. rewrite Tx. apply Nat.le_refl.
  Qed.

  Lemma step_ok P v c o P' : linv P v -> calm (tp_w P) -> (readuniversal cr = true -> no_return c) -> run_lcall cw cr c P = (o, P') ->
    (match c with LcLine _ => In 10 (snd (fst v)) | _ => True end) -> calm (tp_w P') /\ exists v', lstep cd lb v c o v' /\ linv P' v'.
  Proof.
    intros L Ca Nc H Hl. destruct v as [[e f] h]. pose proof L as [W En (r & s0 & r' & fb & Lr & D & HRe & T & Le) Nr]. cbn [fst snd] in *.
    assert (Kw : tc_kind cw = BWriter) by apply Pw.
    destruct c as [s| |it]; cbn [run_lcall] in H.
    - set (t := in_world (tp_out P) (tp_w P)) in *.
      assert (Op : f_closed (b_raw (t_b t)) = false) by apply (pe_open _ _ _ (pw_end _ _ W)).
      pose proof (t_write_run cw s t Op) as X. rewrite (plain_written cw s Pw) in X. change (enc_of cw t) with (enc_of cw (tp_out P)) in X.
      destruct (cd_encode cd (enc_of cw (tp_out P)) s) as [[d e']|] eqn:Ee.
      + destruct X as (rr & t' & E1 & E2 & E3). rewrite E1 in H. injection H as <- <-. cbn [tp_w].
        unfold P_TextFiles.after_write in E2. rewrite Kw in E2. cbn [b_write b_flush] in E2. unfold bind at 1 in E2.
        destruct (calm_write (t_b t) u d W Ca) as (b1 & x & F1 & C1 & K1 & I1 & X1). rewrite F1 in E2.
        assert (HD : forall fb, R e fb -> exists fb', dstep cr ([], fb, false) d false = Some (s, ([], fb', false)) /\ R e' fb').
        { intros fb0 H0. apply (text_decoded e fb0 s d e' H0); [now rewrite En|exact Nc]. }
        destruct (line_end cw s) eqn:Ln.
        * destruct (calm_flush b1 u (wkept_writer _ _ _ W K1) C1) as (b2 & y & F2 & C2 & K2 & W2 & I2 & ->).
          unfold bind in E2. rewrite F2 in E2. injection E2 as <- Eb. rewrite <- Eb. split; [exact C2|].
          destruct (writer_moves P e f h t' (x ++ b_wbuf b1) d s e' L) as (_ & Q); rewrite <- ?Eb; auto.
          -- exact (wkept_trans _ _ _ _ K1 K2).
          -- rewrite I2, I1. cbn [t_b t in_world set_b b_w set_world]. now rewrite app_assoc.
          -- rewrite W2, app_nil_r. exact X1.
          -- rewrite <- Eb in Q. eexists. split; [|apply Q, W2]. rewrite En. eapply L_write_line; [exact Ee|]. now apply (line_end_plain cw s Pw).
        * unfold bind, ret in E2. injection E2 as <- Eb. rewrite <- Eb. split; [exact C1|].
          destruct (writer_moves P e f h t' x d s e' L) as (Q & _); rewrite <- ?Eb; auto.
          rewrite <- Eb in Q. eexists. split; [|exact Q]. rewrite En. eapply L_write; [exact Ee|]. rewrite <- (line_end_plain cw s Pw), Ln. discriminate.
      + destruct X as (t' & E1 & Eb & E3). rewrite E1 in H. injection H as <- <-. cbn [tp_w]. rewrite Eb. split; [exact Ca|].
        exists (e, f, h). split; [apply L_refused; now rewrite En|]. cbn [b_w t_b t in_world set_b set_world].
        change (enc_of cw t) with (enc_of cw (tp_out P)) in E3.
        constructor; cbn [tp_out tp_in tp_w fst snd]; rewrite ?Eb, ?E3; auto. exists r, s0, r', fb. auto.
    - set (t := in_world (tp_out P) (tp_w P)) in *. destruct (t_flush_run cw t) as (rr & t' & E1 & E2 & E3). rewrite E1 in H. injection H as <- <-. cbn [tp_w].
      rewrite Kw in E2. cbn [b_flush] in E2. destruct (calm_flush (t_b t) u W Ca) as (b1 & x & F1 & C1 & K1 & W1 & I1 & X1). rewrite F1 in E2.
      injection E2 as <- Eb. rewrite <- Eb. split; [exact C1|]. change (enc_of cw t) with (enc_of cw (tp_out P)) in E3.
      destruct (writer_moves P e f h t' x [] [] e L) as (_ & Q); rewrite <- ?Eb; auto.
      + rewrite W1, !app_nil_r. exact X1.
      + congruence.
      + intros fb0 H0. exists fb0. split; [|exact H0]. unfold dstep. rewrite (gc_nil _ G). destruct (readuniversal cr); [|reflexivity].
        unfold nlc. cbn. unfold emit. now destruct (readtranslate cr).
      + rewrite app_nil_r in Q. rewrite <- Eb in Q. eexists. split; [apply L_flush|apply Q, W1].
    - destruct (split_line f Hl) as (l & rest & Ef & Nl).
      (* the text available *)
      assert (Av : exists y, left (tp_in P) r = f ++ y). { symmetry in T. destruct (app_prefix _ _ _ _ T Le) as (y & Ey & _). eauto. }
      destruct Av as (y & Ey).
      assert (Nl2 : readuniversal cr = true -> ~ In CR (left (tp_in P) r)).
      { intros Hu X. apply (Nr Hu). rewrite <- T, in_app_iff. now left. }
      assert (Ey2 : left (tp_in P) r = l ++ 10 :: (rest ++ y)) by (rewrite Ey, Ef, <- app_assoc; reflexivity).
      assert (FL : first_line (tc_newline cr) (left (tp_in P) r) (l ++ [10])). { rewrite Ey2. apply plain_first; auto. now rewrite <- Ey2. }
      assert (Cm : ~ no_ending (tc_newline cr) (left (tp_in P) r)).
      { intros N. apply (N l [10] (rest ++ y)); [rewrite Ey2; reflexivity|]. destruct Pr as (_ & [->|[-> | ->]]); cbn; auto. }
      assert (Line : forall t0, lrep cr u t0 r s0 -> left t0 r = left (tp_in P) r -> b_w (t_b t0) = tp_w P ->
        exists t1, t_readline cr None t0 = (Ok (l ++ [10]), t1) /\ calm (b_w (t_b t1)) /\ linv (mkTPipe (tp_out P) t1 (b_w (t_b t1))) (e, rest, h)).
      { intros t0 L0 E0 W0. destruct (t_readline_line cr G (proj1 Pr) u t0 r s0 L0) as (L1 & t1 & r1 & E1 & F1 & Lr1 & El & K1); [now rewrite E0|now rewrite E0|].
        rewrite E0 in F1, El. rewrite (first_line_unique _ _ _ _ F1 FL) in *. exists t1. split; [exact E1|]. split; [apply Lr1|].
        rewrite W0 in K1 || idtac. destruct K1 as (_ & _ & _ & K1). rewrite W0 in K1.
        assert (Hs : skipn (length (l ++ [10])) (left (tp_in P) r) = rest ++ y).
        { rewrite Ey2. change (l ++ 10 :: rest ++ y) with (l ++ [10] ++ rest ++ y). rewrite app_assoc, skipn_app, skipn_all, Nat.sub_diag. reflexivity. }
        constructor; cbn [tp_out tp_in tp_w fst snd]; auto.
        - destruct W as [A B C]. constructor; auto. exact (pend_kept _ _ _ _ A K1).
        - exists r1, s0, r', fb. split. { destruct Lr1 as [A B C I0 Dd]. split; auto. destruct A as [A1 A2 A3 A4]. constructor; auto. }
          split; [exact D|]. split; [exact HRe|]. rewrite El, Hs. split; [|rewrite app_length; lia].
          rewrite Ey, Ef, <- !app_assoc in T. cbn [List.app] in T. apply app_inv_head in T. injection T as T. now rewrite <- app_assoc.
        - intros Hu X. apply (Nr Hu). rewrite Ef, <- app_assoc. cbn [List.app]. rewrite in_app_iff. right. right. exact X. }
      destruct it.
      + unfold t_next in H. unfold bind at 1, upd_t at 1 in H.
        destruct (Line (set_telling (in_world (tp_in P) (tp_w P)) false)) as (t1 & E1 & C1 & L1); [destruct Lr; split; auto|reflexivity|reflexivity|].
        unfold bind at 1 in H. rewrite E1 in H. destruct (l ++ [10]) as [|z zs] eqn:Ez; [destruct l; discriminate|]. rewrite <- Ez in *.
        injection H as <- <-. split; [exact C1|]. exists (e, rest, h). split; [|exact L1]. now apply L_line.
      + destruct (Line (in_world (tp_in P) (tp_w P))) as (t1 & E1 & C1 & L1); [exact Lr|reflexivity|reflexivity|].
        rewrite E1 in H. injection H as <- <-. split; [exact C1|]. exists (e, rest, h). split; [|exact L1]. now apply L_line.
  Qed.

  Lemma lines_run : forall cs P v os P', linv P v -> calm (tp_w P) -> (readuniversal cr = true -> Forall no_return cs) -> run_lcalls cw cr cs P = (os, P') -> lruns cd lb v cs os.
  Proof.
    induction cs as [|c cs IH]; intros P v os P' L Ca Nc H.
    - injection H as <- <-. constructor.
    - cbn [run_lcalls] in H. destruct (run_lcall cw cr c P) as [o P1] eqn:E1. destruct (run_lcalls cw cr cs P1) as [os1 P2] eqn:E2. injection H as <- <-.
      assert (Dl : (match c with LcLine _ => In 10 (snd (fst v)) | _ => True end) \/ exists it, c = LcLine it /\ ~ In 10 (snd (fst v))).
      { destruct c as [| |it]; auto. destruct (in_dec Z.eq_dec 10 (snd (fst v))); [now left|right; eauto]. }
      destruct Dl as [Dl|(it & -> & Dl)]; [|destruct v as [[e f] h]; now apply LR_early].
      destruct (step_ok P v c o P1 L Ca) as (C1 & v' & S1 & L1); auto.
      { intros Hu. specialize (Nc Hu). now inversion Nc. }
      eapply LR_step; [exact S1|]. apply (IH P1 v' os1 P2 L1 C1); [|exact E2]. intros Hu. specialize (Nc Hu). now inversion Nc.
  Qed.
End Lines.

(** Whatever the sizes of the buffers and however the system cuts the transfers, a line that was flushed is what readline(), or
    the next turn of an iteration, gives: whole, in order, once. *)
Theorem C95_lines_arrive_partial cw cr u Q cs os P' :
  plain_writer cw -> plain_reader cr -> tc_codec cr = tc_codec cw -> good_codec (tc_codec cw) -> lockstep (tc_codec cw) ->
  two_ends Q u -> queue Q u = [] -> f_seekable (b_raw (pp_out Q)) = false -> calm (pp_w Q) -> (universal cr -> Forall no_return cs) ->
  run_lcalls cw cr cs (text_over (pp_out Q) (pp_in Q) (pp_w Q)) = (os, P') ->
  lruns (tc_codec cw) (tc_line_buffering cw) (cd_e0 (tc_codec cw), [], []) cs os.
Proof.
  intros Pw Pr Cd G (R & R0 & HR) T Q0 Sk Ca Nc H. assert (G' : good_codec (tc_codec cr)) by now rewrite Cd.
  assert (Hu : readuniversal cr = true -> universal cr). { unfold readuniversal, universal. destruct (tc_newline cr); auto; discriminate. }
  apply (lines_run cw cr u R Pw Pr Cd G' HR cs _ _ os P') with (4 := H); auto.
  assert (E0 : t_enc (t_fresh (pp_out Q)) = None) by (unfold t_fresh; cbn [t_enc]; now rewrite Sk).
  assert (En : enc_of cw (t_fresh (pp_out Q)) = cd_e0 (tc_codec cw)) by (unfold enc_of; now rewrite E0).
  unfold queue in Q0. apply app_eq_nil in Q0 as (U0 & Q0). apply app_eq_nil in Q0 as (I0 & W0).
  assert (Cr : core cr (dec_init cr) = ([], cd_d0 (tc_codec cw), false)) by (rewrite init_core; now rewrite Cd).
  assert (Id : idem cr ([], cd_d0 (tc_codec cw), false)).
  { unfold idem, dstep. rewrite (gc_nil _ G'). destruct (readuniversal cr); [|reflexivity]. unfold nlc. cbn. unfold emit. now destruct (readtranslate cr). }
  constructor; cbn [text_over tp_out tp_in tp_w fst snd].
  - exact (writer_of _ _ T).
  - now symmetry.
  - exists [], ([], cd_d0 (tc_codec cw), false), [], (cd_d0 (tc_codec cw)). split; [|split; [|split; [|split]]].
    + split; cbn [in_world set_b t_fresh t_b t_dec t_used t_chars t_decoder].
      * exact (reader_of _ _ T).
      * exact Ca.
      * apply Nat.le_0_l.
      * unfold t_decoder. cbn [set_b t_dec t_fresh]. now rewrite Cr.
      * unfold t_decoder. cbn [set_b t_dec t_fresh]. rewrite Cr. change (front (set_world (pp_in Q) (pp_w Q)) u) with (unread (pp_in Q) ++ inside (pp_w Q) u).
        rewrite U0, I0. exact Id.
    + change (t_b (t_fresh (pp_out Q))) with (pp_out Q). rewrite W0. exact Id.
    + now rewrite En.
    + reflexivity.
    + apply Nat.le_0_l.
  - intros _ [].
Qed.

(** Line after line: every line is written, flushed and read. *)
Lemma line_by_line cd lb ls it : (forall e l, In l ls -> cd_encode cd e (l ++ [10]) <> None) -> (forall l, In l ls -> ~ In 10 l) -> forall e os,
  lruns cd lb (e, [], []) (flat_map (fun l => [LcWrite (l ++ [10]); LcFlush; LcLine it]) ls) os ->
  os = flat_map (fun l => [LoCount (len l + 1); LoDone; LoLine (l ++ [10])]) ls.
Proof.
  induction ls as [|l ls IH]; intros He Hl e os H; [now inversion H|]. cbn [flat_map List.app] in H.
  assert (Nl : ~ In 10 l) by (apply Hl; now left).
  assert (Uni : forall a x r, a ++ 10 :: r = l ++ [10] -> x = a -> ~ In 10 a -> a = l /\ r = []).
  { intros a x r E _ Na. assert (E2 : a ++ [10] ++ r = l ++ [10] ++ []) by exact E. destruct (Nat.lt_trichotomy (length a) (length l)) as [X|[X|X]].
    - exfalso. destruct (occ_inside l [10] a [10] r) as [z Z1]; [symmetry; exact E|cbn; lia|]. apply Nl. rewrite Z1, in_app_iff. right. now left.
    - apply app_same_len in E2 as [-> E2]; [|exact X]. injection E2 as ->. auto.
    - exfalso. destruct (occ_inside a (10 :: r) l [10] []) as [z Z1]; [exact E|cbn; lia|]. apply Na. rewrite Z1, in_app_iff. right. now left. }
  inversion H as [|v c o v' cs0 os0 S1 H1 Ev Ec Eo|]; subst. inversion S1; subst.
  3:{ exfalso. apply (He e l); [now left|]. assumption. }
  all: inversion H1 as [|v2 c2 o2 v2' cs2 os2 S2 H2 Ev Ec Eo|]; subst; inversion S2; subst; cbn [List.app] in *.
  all: inversion H2 as [|v3 c3 o3 v3' cs3 os3 S3 H3 Ev Ec Eo|? ? ? ? ? ? N0]; subst.
  all: try (exfalso; apply N0; rewrite ?app_nil_r, in_app_iff; right; now left).
  all: inversion S3; subst.
  all: match goal with E : _ = ?a ++ 10 :: ?r |- _ => rewrite ?app_nil_r in E; symmetry in E; destruct (Uni a a r E eq_refl) as (-> & ->); [assumption|] end.
  all: assert (Ln : len (l ++ [10]) = len l + 1) by (unfold len; rewrite app_length; cbn [length]; lia); rewrite Ln.
  all: cbn [flat_map List.app]; do 3 f_equal; eapply IH; [intros e0 l0 I0; apply He; now right|intros l0 I0; apply Hl; now right|eassumption].
Qed.
Theorem C95_line_by_line_partial cw cr u Q ls it os P' :
  plain_writer cw -> plain_reader cr -> tc_codec cr = tc_codec cw -> good_codec (tc_codec cw) -> lockstep (tc_codec cw) ->
  two_ends Q u -> queue Q u = [] -> f_seekable (b_raw (pp_out Q)) = false -> calm (pp_w Q) ->
  (forall e l, In l ls -> cd_encode (tc_codec cw) e (l ++ [10]) <> None) -> (forall l, In l ls -> ~ In 10 l) -> (universal cr -> forall l, In l ls -> ~ In 13 l) ->
  run_lcalls cw cr (flat_map (fun l => [LcWrite (l ++ [10]); LcFlush; LcLine it]) ls) (text_over (pp_out Q) (pp_in Q) (pp_w Q)) = (os, P') ->
  os = flat_map (fun l => [LoCount (len l + 1); LoDone; LoLine (l ++ [10])]) ls.
Proof.
  intros Pw Pr Cd G Lk T Q0 Sk Ca He Hl Hr H. eapply line_by_line; [exact He|exact Hl|].
  eapply C95_lines_arrive_partial; eauto. intros Hu. specialize (Hr Hu). clear -Hr. induction ls as [|l ls IH]; [constructor|]. cbn [flat_map List.app].
  constructor; [|constructor; [exact I|constructor; [exact I|apply IH; intros x Hx; apply Hr; now right]]].
  cbn [no_return]. rewrite in_app_iff. intros [X|[X|[]]]; [|discriminate X]. revert X. apply Hr. now left.
Qed.

(** The codecs. *)
Lemma simple_lockstep next enc1 : (forall l c n, next l = NChar c n -> (1 <= n <= length l)%nat) ->
  (forall c b y, enc1 c = Some b -> next (b ++ y) = NChar c (length b)) -> lockstep (simple_codec next enc1).
Proof.
  intros Nc Ne. exists (fun _ f => f = 0). split; [reflexivity|]. intros e f s b e' -> H. exists 0. split; [|reflexivity].
  cbn [simple_codec cd_decode cd_encode fst snd List.app] in *. destruct (encode_all enc1 s) as [bs|] eqn:E; [|discriminate]. injection H as <- _.
  assert (X : decode_all next (length bs) bs false = Some (s, [])).
  { clear e'. revert bs E. induction s as [|c s IH]; intros bs E; cbn [encode_all] in E; [injection E as <-; reflexivity|].
    destruct (enc1 c) as [bc|] eqn:E1; [|discriminate]. destruct (encode_all enc1 s) as [b2|]; [|discriminate]. injection E as <-.
    pose proof (Ne c bc b2 E1) as N. pose proof (Nc _ _ _ N) as L. destruct bc as [|z bc]; [cbn in L; lia|].
    cbn [List.app]. rewrite (run_step next Nc). change (z :: bc ++ b2) with ((z :: bc) ++ b2). rewrite N.
    rewrite skipn_app, skipn_all, Nat.sub_diag. cbn [skipn List.app]. now rewrite (IH b2 eq_refl). }
  now rewrite X.
Qed.
Theorem C95_codecs : (good_codec utf8 /\ lockstep utf8) /\ (good_codec latin1 /\ lockstep latin1).
Proof.
  split; (split; [exact utf8_good || exact latin1_good|]).
  - apply simple_lockstep; [exact utf8_next_char|exact utf8_next_enc].
  - apply simple_lockstep; unfold latin1_next, latin1_enc1.
    + intros [|a l] c n H; [discriminate H|]. injection H as <- <-. cbn. lia.
    + intros c b y. destruct (within 0 255 c); [|discriminate]. intros H. injection H as <-. reflexivity.
Qed.

(** * Example: a named pipe, buffers of four bytes, bytes one by one *)
Definition conf_w (lb : bool) : tconf := mkTC utf8 NlNone [10] lb BWriter.
Definition conf_r : tconf := mkTC utf8 NlNone [10] false BReader.
Definition hello : list Z := [104; 233; 8364; 10].
Definition chat : list lcall :=
  [LcWrite [104; 233]; LcWrite [8364; 10; 119]; LcFlush; LcLine false; LcWrite [233; 10; 10; 65]; LcFlush; LcLine true; LcLine false; LcWrite [55296]; LcWrite [66; 10]; LcFlush; LcLine false].
Definition chat_io : list ioev := [IoShort 1; IoShort 1; IoShort 1; IoShort 2; IoShort 1; IoShort 1; IoShort 1; IoShort 1; IoShort 2].
Definition replies : list lout :=
  [LoCount 2; LoCount 3; LoDone; LoLine hello; LoCount 4; LoDone; LoLine [119; 233; 10]; LoLine [10]; LoErr EValue; LoCount 2; LoDone; LoLine [65; 66; 10]].
Definition over (io : list ioev) : tpipe := let Q := ends io in text_over (pp_out Q) (pp_in Q) (pp_w Q).
Example C95_chat : fst (run_lcalls (conf_w false) conf_r chat (over chat_io)) = replies /\ lruns utf8 false (0, [], []) chat replies.
Proof.
  assert (E : fst (run_lcalls (conf_w false) conf_r chat (over chat_io)) = replies) by (vm_compute; reflexivity). split; [exact E|].
  destruct (run_lcalls (conf_w false) conf_r chat (over chat_io)) as [os P'] eqn:R. cbn [fst] in E. subst os.
  apply (C95_lines_arrive_partial (conf_w false) conf_r (1, 10) (ends chat_io) chat replies P'); auto.
  - split; [reflexivity|]. left. split; reflexivity.
  - split; [reflexivity|]. now left.
  - apply C95_codecs.
  - apply C95_codecs.
  - apply ends_ok.
  - unfold calm. vm_compute. repeat constructor.
  - intros _. unfold chat. repeat constructor; cbn; intuition discriminate.
Qed.
(** With line buffering no flush() is needed. *)
Example C95_line_buffering : fst (run_lcalls (conf_w true) conf_r [LcWrite [104]; LcWrite [105; 10; 111]; LcLine true; LcWrite [10]; LcLine false] (over [IoShort 1; IoShort 1]))
  = [LoCount 1; LoCount 3; LoLine [104; 105; 10]; LoCount 1; LoLine [111; 10]].
Proof. vm_compute. reflexivity. Qed.

(** * What does not hold *)

Definition short : list Z := [104; 233; 10].
(** On a pipe that is empty for the moment and does not block, the reader takes the bytes that it has for the last ones: an
    end of iteration before the end, a line in two pieces, a UnicodeDecodeError for a correct text (and the characters before are lost). *)
Theorem C95_lines_arrive_refuted :
  fst (run_lcalls (conf_w false) conf_r [LcLine true; LcWrite short; LcFlush; LcLine true] (over [IoErr 11])) = [LoStop; LoCount 3; LoDone; LoLine short]
  /\ fst (run_lcalls (conf_w false) conf_r [LcWrite short; LcFlush; LcLine false; LcFlush; LcLine false] (over [IoShort 1; IoErr 11; IoFull; IoErr 11]))
     = [LoCount 3; LoErr (EBlocking 0); LoLine [104]; LoDone; LoLine [233; 10]]
  /\ fst (run_lcalls (conf_w false) conf_r [LcWrite short; LcFlush; LcLine false; LcFlush; LcLine false] (over [IoShort 2; IoErr 11; IoFull; IoErr 11]))
     = [LoCount 3; LoErr (EBlocking 0); LoErr EValue; LoDone; LoLine [233; 10]].
Proof. split; [|split]; vm_compute; reflexivity. Qed.

Print Assumptions C95_lines_arrive_partial.
Print Assumptions C95_line_by_line_partial.
Print Assumptions C95_codecs.
Print Assumptions C95_chat.
Print Assumptions C95_lines_arrive_refuted.
