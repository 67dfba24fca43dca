(** Lemmas for C80. *)
From Coq Require Import ZArith List Bool Lia.
From Verif Require Import M_Base M_Modes M_Registry M_Kernel M_World M_Raw M_Buffered M_Newline M_Text S_Bytes S_Raw S_Buffered S_Newline S_Text S_Codecs S_Malformed
  P_Bytes P_Raw P_Buffered P_BufOps P_Newline P_Decode P_TextBase P_TextRead P_TextLine P_TextTell P_Codecs.
Import ListNotations.
Open Scope Z_scope.

(** * The codec that marks *)
Section Marking.
  Variable m : Z.
  Variable next : list Z -> nxt.
  Variable enc1 : Z -> option (list Z).
  Hypothesis next_char : forall l c n, next l = NChar c n -> (1 <= n <= length l)%nat.
  Hypothesis next_app : forall l y c n, next l = NChar c n -> next (l ++ y) = NChar c n.
  Hypothesis next_bad : forall l y, next l = NBad -> next (l ++ y) = NBad.
  Hypothesis next_enc : forall c b y, enc1 c = Some b -> next (b ++ y) = NChar c (length b).
  Hypothesis next_nil : next [] = NMore.

  Notation lrun := (decode_all (lenient m next)).

  Lemma lenient_char l c n : lenient m next l = NChar c n -> (1 <= n <= length l)%nat.
  Proof.
    unfold lenient. destruct (next l) as [| |c0 n0] eqn:E; intros H; [discriminate H| |injection H as <- <-; eauto].
    injection H as _ <-. destruct l; [congruence|]. cbn. lia.
  Qed.
  Lemma lenient_app l y c n : lenient m next l = NChar c n -> lenient m next (l ++ y) = NChar c n.
  Proof.
    unfold lenient. destruct (next l) as [| |c0 n0] eqn:E; intros H; [discriminate H| |].
    - now rewrite (next_bad l y E).
    - now rewrite (next_app l y _ _ E).
  Qed.
  Lemma lenient_bad l y : lenient m next l = NBad -> lenient m next (l ++ y) = NBad.
  Proof. unfold lenient. destruct (next l); discriminate. Qed.
  Lemma lenient_enc c b y : enc1 c = Some b -> lenient m next (b ++ y) = NChar c (length b).
  Proof. intros H. unfold lenient. now rewrite (next_enc c b y H). Qed.

  Lemma lrun_total : forall k l, exists o b, lrun k l false = Some (o, b).
  Proof.
    induction k as [|k IH]; intros l; cbn [decode_all]; [eauto|]. destruct l as [|x l]; [eauto|].
    destruct (lenient m next (x :: l)) as [| |c n] eqn:E; [eauto| |].
    - unfold lenient in E. destruct (next (x :: l)); discriminate E.
    - destruct (IH (skipn n (x :: l))) as (o & b & ->). eauto.
  Qed.
  Lemma lrun_strict : forall k l fin o b, decode_all next k l fin = Some (o, b) -> lrun k l false = Some (o, b).
  Proof.
    induction k as [|k IH]; intros l fin o b H; cbn [decode_all] in *; [exact H|]. destruct l as [|x l]; [exact H|].
    change (lenient m next (x :: l)) with (match next (x :: l) with NBad => NChar m 1 | y => y end). destruct (next (x :: l)) as [| |c n]; [destruct fin; [discriminate H|exact H]|discriminate H|].
    destruct (decode_all next k (skipn n (x :: l)) fin) as [[o' b']|] eqn:E; [|discriminate H]. now rewrite (IH _ _ _ _ E).
  Qed.

  Lemma marking_good : good_codec (marking m next enc1).
  Proof.
    pose proof (run_app (lenient m next) lenient_char lenient_app lenient_bad) as RA.
    pose proof (run_keep (lenient m next) lenient_char) as RK.
    constructor; cbn [marking cd_decode cd_encode cd_d0 cd_e0 fst snd].
    - reflexivity.
    - reflexivity.
    - reflexivity.
    - intros f x y fin out s. cbn [app]. specialize (RA (length x) x (le_n _) y false). destruct (lrun (length x) x false) as [[o b]|]; [|discriminate].
      intros H. injection H as <- <-. cbn [fst snd]. rewrite RA. destruct (lrun (length (b ++ y)) (b ++ y) false) as [[o' b']|]; [|reflexivity].
      destruct fin; [now rewrite app_assoc|reflexivity].
    - intros f x y fin. cbn [app]. destruct (lrun_total (length x) x) as (o & b & ->). discriminate.
    - intros f x out b f'. cbn [app]. destruct (lrun (length x) x false) as [[o b']|] eqn:E; [|discriminate]. intros H. injection H as <- <- <-.
      now destruct (RK (length x) x (le_n _) _ _ _ E).
    - intros f x out b f'. cbn [app]. destruct (lrun (length x) x false) as [[o b']|]; [|discriminate]. intros H. now injection H as _ <- _.
    - intros f x fin out b f' Hf. cbn [app]. destruct (lrun (length x) x false) as [[o b']|]; [|discriminate].
      destruct fin; intros H; injection H as _ _ <-; exact Hf.
    - intros f x fin out s. cbn [app]. destruct (lrun (length x) x false) as [[o b]|] eqn:E; [|discriminate].
      destruct (RK (length x) x (le_n _) _ _ _ E) as ((a & Ha) & _ & H).
      destruct fin; intros X; injection X as <- _; unfold len; [|lia].
      rewrite app_length. destruct b as [|z b]; cbn [length]; [lia|]. assert (1 <= length x)%nat by (rewrite Ha, app_length; cbn; lia). lia.
    - reflexivity.
    - intros s b e. destruct (encode_all enc1 s) as [bs|] eqn:E; [|discriminate]. intros H. injection H as <- <-. cbn [app].
      rewrite (lrun_strict _ _ _ _ _ (run_encode next enc1 next_char next_enc s bs E)). rewrite app_nil_r. eauto.
  Qed.

  Lemma marking_extends : extends (simple_codec next enc1) (marking m next enc1).
  Proof.
    constructor; cbn [simple_codec marking cd_d0 cd_e0 cd_decode]; try reflexivity.
    intros s x fin r. destruct (decode_all next (length (fst s ++ x)) (fst s ++ x) fin) as [[o b]|] eqn:E; [|discriminate].
    intros H. injection H as <-. rewrite (lrun_strict _ _ _ _ _ E). destruct fin; [|reflexivity].
    destruct (run_keep next next_char _ _ (le_n _) _ _ _ E) as (_ & B & _). rewrite (B eq_refl), app_nil_r. reflexivity.
  Qed.

  (** The text that a marking codec gives for well-formed bytes followed by malformed ones. *)
  Lemma marking_prefix good bad raw f : decode_all next (length good) good false = Some (raw, []) -> next bad = NBad ->
    exists more st, cd_decode (marking m next enc1) ([], f) (good ++ bad) true = Some (raw ++ m :: more, st).
  Proof.
    intros Dg Nb. cbn [marking cd_decode fst snd app].
    pose proof (run_app (lenient m next) lenient_char lenient_app lenient_bad (length good) good (le_n _) bad false) as RA.
    rewrite (lrun_strict _ _ _ _ _ Dg) in RA. rewrite RA. cbn [app]. destruct bad as [|z bad]; [congruence|].
    rewrite (run_step (lenient m next) lenient_char). change (lenient m next (z :: bad)) with (match next (z :: bad) with NBad => NChar m 1 | y => y end). rewrite Nb.
    destruct (lrun_total (length (skipn 1 (z :: bad))) (skipn 1 (z :: bad))) as (o & b & ->).
    eexists _, _. rewrite <- app_assoc. cbn [app]. reflexivity.
  Qed.
End Marking.

Lemma utf8_next_nil : utf8_next [] = NMore.
Proof. reflexivity. Qed.
Lemma utf8_marking_good m : good_codec (utf8_marking m).
Proof. apply marking_good; [exact utf8_next_char|exact utf8_next_app|exact utf8_next_bad|exact utf8_next_enc|exact utf8_next_nil]. Qed.
Lemma utf8_marking_extends m : extends utf8 (utf8_marking m).
Proof. apply marking_extends. exact utf8_next_char. Qed.
Lemma utf8_marking_total m nl b : exists txt, text_of (utf8_marking m) nl b txt.
Proof.
  unfold text_of. cbn [utf8_marking marking cd_decode cd_d0 fst snd app].
  destruct (lrun_total m utf8_next (length b) b) as (o & r & ->).
  set (raw := o ++ match r with [] => [] | _ => [m] end).
  destruct (pieces_exist raw) as (ps & P). destruct nl; try (exists raw, raw, ([], 0); split; [reflexivity|reflexivity]).
  exists (flat_map translated ps), raw, ([], 0). split; [reflexivity|]. exists ps. auto.
Qed.

(** * Streams with either codec do the same, until one fails *)
Definition agree {A} (m m' : T A) : Prop := forall t, m t = m' t \/ fst (m t) = Err EValue.
Lemma agree_refl {A} (m : T A) : agree m m.
Proof. intros t. now left. Qed.
Lemma agree_bind {A B} (m m' : T A) (k k' : A -> T B) : agree m m' -> (forall a, agree (k a) (k' a)) -> agree (bind m k) (bind m' k').
Proof.
  intros H K t. unfold bind. destruct (H t) as [E|E].
  - rewrite E. destruct (m' t) as [[a|e] t1]; [apply K|now left].
  - right. destruct (m t) as [[a|e] t1]; [discriminate E|cbn in *; congruence].
Qed.
Lemma agree_if {A} (b : bool) (m m' n n' : T A) : agree m m' -> agree n n' -> agree (if b then m else n) (if b then m' else n').
Proof. destruct b; auto. Qed.
Definition ragree {A} (r r' : res A) : Prop := r = r' \/ r = Err EValue.

Section Agree.
  Variables (c : tconf) (cd' : codec).
  Hypothesis EX : extends (tc_codec c) cd'.
  Notation c' := (with_codec c cd').

  Lemma dec_init_same : dec_init c' = dec_init c.
  Proof. unfold dec_init. cbn [with_codec tc_codec]. now rewrite (ex_d0 _ _ EX). Qed.
  Lemma dec_decode_agree d x fin r : dec_decode c d x fin = Some r -> dec_decode c' d x fin = Some r.
  Proof.
    unfold dec_decode. cbn [with_codec tc_codec]. destruct (cd_decode (tc_codec c) (d_buf d, d_flags d) x fin) as [[o [b f]]|] eqn:E; [|discriminate].
    now rewrite (ex_decode _ _ EX _ _ _ _ E).
  Qed.
  Lemma t_decode_agree x fin : agree (t_decode c x fin) (t_decode c' x fin).
  Proof.
    intros t. unfold t_decode, t_decoder. rewrite dec_init_same.
    destruct (dec_decode c (match t_dec t with Some d => d | None => dec_init c end) x fin) as [[o d]|] eqn:E; [|now right].
    left. now rewrite (dec_decode_agree _ _ _ _ E).
  Qed.
  Lemma t_make_decoder_same : t_make_decoder c' = t_make_decoder c.
  Proof. unfold t_make_decoder. now rewrite dec_init_same. Qed.

  Lemma read_chunk_agree : agree (read_chunk c) (read_chunk c').
  Proof.
    intros t. unfold read_chunk. destruct (t_dec t) as [d|]; [|now left]. change (dec_getstate c' d) with (dec_getstate c d).
    destruct (dec_getstate c d) as [buf fl]. cbn [with_codec tc_kind]. revert t.
    assert (A : forall t0 : tstate, agree
      (chunk <- on_b (b_read1 (tc_kind c) CHUNK_SIZE) ;;
         match chunk with
         | None => raise EType
         | Some chunk =>
             let eof := match chunk with [] => true | _ => false end in
             out <- t_decode c chunk eof ;;
             upd_t (fun t => set_chars t out 0) ;;
             upd_t (fun t => set_ratio t (match out with [] => (0, 1)%nat | _ => (length chunk, length out) end)) ;;
             (if t_telling t0 then upd_t (fun t => set_snap t (Some (fl, buf ++ chunk))) else ret tt) ;;
             ret (negb eof)
         end)
      (chunk <- on_b (b_read1 (tc_kind c) CHUNK_SIZE) ;;
         match chunk with
         | None => raise EType
         | Some chunk =>
             let eof := match chunk with [] => true | _ => false end in
             out <- t_decode c' chunk eof ;;
             upd_t (fun t => set_chars t out 0) ;;
             upd_t (fun t => set_ratio t (match out with [] => (0, 1)%nat | _ => (length chunk, length out) end)) ;;
             (if t_telling t0 then upd_t (fun t => set_snap t (Some (fl, buf ++ chunk))) else ret tt) ;;
             ret (negb eof)
         end)).
    { intros t0. apply agree_bind; [apply agree_refl|]. intros [ch|]; [|apply agree_refl]. cbv zeta.
      apply agree_bind; [apply t_decode_agree|]. intros o. apply agree_refl. }
    intros t. exact (A t t).
  Qed.
  Lemma read_loop_agree : forall fuel size res, agree (read_loop fuel c size res) (read_loop fuel c' size res).
  Proof.
    induction fuel as [|k IH]; intros size res; cbn [read_loop]; [apply agree_refl|]. apply agree_if; [|apply agree_refl].
    apply agree_bind; [apply read_chunk_agree|]. intros more. apply agree_bind; [apply agree_refl|]. intros out. apply agree_if; [apply IH|apply agree_refl].
  Qed.
  Lemma t_read_agree n : agree (t_read c n) (t_read c' n).
  Proof.
    unfold t_read. rewrite t_make_decoder_same. change (t_check_readable c') with (t_check_readable c). change (tc_kind c') with (tc_kind c).
    apply agree_bind; [apply agree_refl|]. intros _. apply agree_bind; [apply agree_refl|]. intros _. apply agree_if.
    - apply agree_bind; [apply agree_refl|]. intros a. apply agree_bind; [apply agree_refl|]. intros [b|]; [|apply agree_refl].
      apply agree_bind; [apply t_decode_agree|]. intros r. apply agree_refl.
    - apply agree_bind; [apply agree_refl|]. intros r. apply agree_bind; [apply agree_refl|]. intros fuel. apply read_loop_agree.
  Qed.
  Lemma fetch_agree : forall fuel, agree (fetch fuel c) (fetch fuel c').
  Proof.
    induction fuel as [|k IH]; cbn [fetch]; [apply agree_refl|]. apply agree_bind; [apply read_chunk_agree|]. intros more t.
    destruct (negb more); [now left|]. destruct (t_chars t); [apply IH|now left].
  Qed.
  Lemma tline_loop_agree : forall fuel size line start, agree (tline_loop fuel c size line start) (tline_loop fuel c' size line start).
  Proof.
    induction fuel as [|k IH]; intros size line start; cbn [tline_loop]; [apply agree_refl|].
    change (find_end c' line start) with (find_end c line start). destruct (find_end c line start); [apply agree_refl|].
    apply agree_if; [apply agree_refl|]. apply agree_bind; [apply agree_refl|]. intros f. apply agree_bind; [apply fetch_agree|]. intros _ t.
    destruct (t_chars t) eqn:Et; [now left|]. revert t Et. assert (A : agree (more <- get_chars None ;; tline_loop k c size (line ++ more) (length line))
      (more <- get_chars None ;; tline_loop k c' size (line ++ more) (length line))).
    { apply agree_bind; [apply agree_refl|]. intros more. apply IH. }
    intros t _. exact (A t).
  Qed.
  Lemma t_readline_agree n : agree (t_readline c n) (t_readline c' n).
  Proof.
    unfold t_readline. rewrite t_make_decoder_same. apply agree_bind; [apply agree_refl|]. intros _. apply agree_bind; [apply agree_refl|]. intros line.
    apply agree_bind; [apply agree_refl|]. intros _. apply agree_bind; [apply agree_refl|]. intros fuel. apply tline_loop_agree.
  Qed.
  Lemma t_next_agree : agree (t_next c) (t_next c').
  Proof.
    unfold t_next. apply agree_bind; [apply agree_refl|]. intros _. apply agree_bind; [apply t_readline_agree|]. intros line. apply agree_refl.
  Qed.

  Lemma dec_try_agree d x fin : ragree (dec_try c d x fin) (dec_try c' d x fin).
  Proof.
    unfold dec_try, ragree. destruct (dec_decode c d x fin) as [r|] eqn:E; [|now right]. left. now rewrite (dec_decode_agree _ _ _ _ E).
  Qed.
  Lemma skip_loop_agree : forall fuel x fl skip back todo d, ragree (skip_loop fuel c x fl skip back todo d) (skip_loop fuel c' x fl skip back todo d).
  Proof.
    induction fuel as [|k IH]; intros x fl skip back todo d; cbn [skip_loop]; [now left|]. destruct (0 <? skip); [|now left].
    change (dec_setstate c' d ([], fl)) with (dec_setstate c d ([], fl)).
    destruct (dec_try_agree (dec_setstate c d ([], fl)) (firstn (Z.to_nat skip) x) false) as [E|E]; rewrite E; [|now right].
    destruct (dec_try c' (dec_setstate c d ([], fl)) (firstn (Z.to_nat skip) x) false) as [[o d1]|e]; [|now left].
    change (dec_getstate c' d1) with (dec_getstate c d1). destruct (length o <=? todo)%nat; [|apply IH].
    destruct (dec_getstate c d1) as [[|z b] f2]; [now left|apply IH].
  Qed.
  Lemma feed_loop_agree : forall x start fl fed decoded todo d, ragree (feed_loop c x start fl fed decoded todo d) (feed_loop c' x start fl fed decoded todo d).
  Proof.
    induction x as [|z x IH]; intros start fl fed decoded todo d; cbn [feed_loop].
    - destruct (dec_try_agree d [] true) as [E|E]; rewrite E; [now left|now right].
    - destruct (dec_try_agree d [z] false) as [E|E]; rewrite E; [|now right].
      destruct (dec_try c' d [z] false) as [[o d1]|e]; [|now left]. change (dec_getstate c' d1) with (dec_getstate c d1).
      destruct (dec_getstate c d1) as [b f2].
      destruct ((match b with [] => true | _ => false end) && (decoded + length o <=? todo)%nat);
      match goal with |- context [if ?b then _ else _] => destruct b end; [now left|apply IH|now left|apply IH].
  Qed.
  Lemma t_tell_agree guess : agree (t_tell guess c) (t_tell guess c').
  Proof.
    unfold t_tell. change (t_flush c') with (t_flush c). change (tc_kind c') with (tc_kind c).
    apply agree_bind; [apply agree_refl|]. intros _. apply agree_bind; [apply agree_refl|]. intros _. apply agree_bind; [apply agree_refl|]. intros p t.
    destruct (t_dec t) as [d|]; [|now left]. destruct (t_snap t) as [[fl x]|]; [|now left]. cbv zeta. destruct (t_used t =? 0)%nat; [now left|].
    destruct (negb (guess (fst (t_ratio t)) (snd (t_ratio t)) (t_used t) <=? Z.of_nat (length x))); [now left|].
    destruct (skip_loop_agree (S (Z.to_nat (guess (fst (t_ratio t)) (snd (t_ratio t)) (t_used t)))) x fl
                (guess (fst (t_ratio t)) (snd (t_ratio t)) (t_used t)) 1 (t_used t) d) as [E|E]; rewrite E; [|now right].
    match goal with |- context [skip_loop ?f c' ?a ?b ?s 1 ?u d] => destruct (skip_loop f c' a b s 1 u d) as [[[[sk f2] td] d1]|e] end; [|now left].
    destruct (td =? 0)%nat; [now left|].
    match goal with |- context [feed_loop c ?a ?b f2 0 0%nat td d1] => destruct (feed_loop_agree a b f2 0 0%nat td d1) as [E1|E1]; rewrite E1 end; [now left|now right].
  Qed.
  Lemma t_seek_to_agree n : agree (t_seek_to c n) (t_seek_to c' n).
  Proof.
    unfold t_seek_to, reset_encoder, dec_reset. rewrite dec_init_same. cbn [with_codec tc_codec]. rewrite (ex_e0 _ _ EX).
    change (t_flush c') with (t_flush c). change (tc_kind c') with (tc_kind c). change (dec_setstate c') with (dec_setstate c).
    repeat (apply agree_bind; [try apply agree_refl|intros ?; try apply agree_refl]). apply agree_if; [apply agree_refl|].
    apply agree_bind; [apply agree_refl|]. intros [x|]; [|apply agree_refl]. apply agree_bind; [apply t_decode_agree|]. intros o. apply agree_refl.
  Qed.
  (** A position of a byte needs no decoder. *)
  Lemma t_seek_to_byte n : ck_skip (unpack_cookie n) = 0 -> t_seek_to c' n = t_seek_to c n.
  Proof.
    intros H. unfold t_seek_to, reset_encoder, dec_reset. rewrite dec_init_same, H. cbn [with_codec tc_codec]. rewrite (ex_e0 _ _ EX). reflexivity.
  Qed.
  Lemma byte_skip n : 0 <= n < 2 ^ 64 -> ck_skip (unpack_cookie n) = 0.
  Proof. intros H. unfold unpack_cookie. cbn [ck_skip]. rewrite (Z.div_small n (2 ^ 64)) by lia. reflexivity. Qed.
  Lemma t_seek_byte guess n : 0 <= n < 2 ^ 64 -> t_seek guess c' n 0 = t_seek guess c n 0.
  Proof. intros H. unfold t_seek. change (0 =? 1) with false. change (0 =? 2) with false. change (0 =? 0) with true. cbn [negb]. now rewrite (t_seek_to_byte n (byte_skip n H)). Qed.
  Lemma t_seek_agree guess n : agree (t_seek guess c n 0) (t_seek guess c' n 0).
  Proof.
    unfold t_seek. change (0 =? 1) with false. change (0 =? 2) with false. change (0 =? 0) with true. cbn [negb].
    apply agree_bind; [apply agree_refl|]. intros _. apply agree_bind; [apply agree_refl|]. intros _. apply t_seek_to_agree.
  Qed.
  Lemma t_seek_end_same guess : t_seek guess c' 0 2 = t_seek guess c 0 2.
  Proof.
    unfold t_seek, reset_encoder, dec_reset. change (2 =? 1) with false. change (2 =? 2) with true. rewrite dec_init_same. cbn [with_codec tc_codec].
    rewrite (ex_e0 _ _ EX). reflexivity.
  Qed.

  Lemma run_top_agree guess op t : run_top guess c op t = run_top guess c' op t
    \/ (fst (run_top guess c op t) = TErr EValue /\ op <> ToEnd /\ forall n, op = ToSeek n -> ~ byte_position n).
  Proof.
    destruct op as [n|n| | |n|]; cbn [run_top].
    - destruct (t_read_agree n t) as [E|E]; [left; now rewrite E|right]. destruct (t_read c n t) as [[a|e] t1]; [discriminate E|]. cbn in *. split; [congruence|split; [discriminate|intros ?; discriminate]].
    - destruct (t_readline_agree n t) as [E|E]; [left; now rewrite E|right]. destruct (t_readline c n t) as [[a|e] t1]; [discriminate E|]. cbn in *. split; [congruence|split; [discriminate|intros ?; discriminate]].
    - destruct (t_next_agree t) as [E|E]; [left; now rewrite E|right]. destruct (t_next c t) as [[a|e] t1]; [discriminate E|]. cbn in *. split; [congruence|split; [discriminate|intros ?; discriminate]].
    - destruct (t_tell_agree guess t) as [E|E]; [left; now rewrite E|right]. destruct (t_tell guess c t) as [[a|e] t1]; [discriminate E|]. cbn in *. split; [congruence|split; [discriminate|intros ?; discriminate]].
    - destruct (t_seek_agree guess n t) as [E|E]; [left; now rewrite E|].
      assert (D : byte_position n \/ ~ byte_position n) by (unfold byte_position; lia). destruct D as [D|D].
      + left. now rewrite (t_seek_byte guess n D).
      + right. destruct (t_seek guess c n 0 t) as [[a|e] t1]; [discriminate E|]. cbn in *. split; [congruence|]. split; [discriminate|]. intros k Hk. injection Hk as <-. exact D.
    - left. now rewrite t_seek_end_same.
  Qed.
End Agree.

(** * The buffer survives errors *)
Section Keeps.
  Variables (c : tconf) (C : list Z).
  Definition sound (t : tstate) : Prop := exists p, bst (tc_kind c) (t_b t) C p.
  Definition keeps {A} (m : T A) : Prop := forall t, sound t -> sound (snd (m t)).

  Lemma keeps_ret {A} (a : A) : keeps (ret a).
  Proof. intros t H. exact H. Qed.
  Lemma keeps_raise {A} e : keeps (@raise tstate A e).
  Proof. intros t H. exact H. Qed.
  Lemma keeps_upd f : (forall t, t_b (f t) = t_b t) -> keeps (upd_t f).
  Proof. intros H t (p & B). exists p. unfold upd_t. cbn [snd]. now rewrite H. Qed.
  Lemma keeps_bind {A B} (m : T A) (k : A -> T B) : keeps m -> (forall a, keeps (k a)) -> keeps (bind m k).
  Proof.
    intros H K t S. unfold bind. specialize (H t S). destruct (m t) as [[a|e] t1]; [apply K; exact H|exact H].
  Qed.
  Lemma keeps_if {A} (b : bool) (m n : T A) : keeps m -> keeps n -> keeps (if b then m else n).
  Proof. destruct b; auto. Qed.
  Lemma keeps_on_b {A} (m : B A) : (forall b p, bst (tc_kind c) b C p -> exists p', bst (tc_kind c) (snd (m b)) C p') -> keeps (on_b m).
  Proof.
    intros H t (p & B). unfold on_b. destruct (H _ _ B) as (p' & B'). destruct (m (t_b t)) as [r b]. exists p'. exact B'.
  Qed.
  Lemma keeps_pure {A} (m : T A) : (forall t, t_b (snd (m t)) = t_b t) -> keeps m.
  Proof. intros H t (p & B). exists p. now rewrite H. Qed.

  Lemma keeps_read1 : keeps (on_b (b_read1 (tc_kind c) CHUNK_SIZE)).
  Proof. apply keeps_on_b. intros b p H. destruct (bst_read1 _ _ _ _ H) as (d & b' & -> & _ & B & _). eauto. Qed.
  Lemma keeps_read_all : keeps (on_b (b_read (tc_kind c) None)).
  Proof. apply keeps_on_b. intros b p H. destruct (bst_read_all _ _ _ _ H) as (b' & -> & B). eauto. Qed.
  Lemma keeps_read_n n : 0 <= n -> keeps (on_b (b_read (tc_kind c) (Some n))).
  Proof.
    intros Hn. apply keeps_on_b. intros b q (o & i & R & T & N & W & K & A).
    destruct (b_read_ok (tc_kind c) b o i C q (Some n) R T N K) as (r & b' & o' & i' & -> & V & d & -> & G & S & R' & W'); [cbn; lia|].
    exists (q + len d). cbn [snd]. exists o', i'. split; [exact R'|]. split; [eapply tameb_evolves; eauto|]. split; [eapply no_epipe_evolves; eauto|].
    split; [auto|]. split; [auto|]. rewrite (so_app _ _ (ev_o _ _ _ _ V)); exact A.
  Qed.
  Lemma keeps_flush : keeps (t_flush c).
  Proof.
    apply keeps_bind; [|intros _; apply keeps_upd; reflexivity]. apply keeps_on_b. intros b p H. destruct (bst_flush _ _ _ _ H) as (b' & -> & B). eauto.
  Qed.
  Lemma keeps_btell : keeps (on_b (b_tell (tc_kind c))).
  Proof. apply keeps_on_b. intros b p H. destruct (bst_tell _ _ _ _ H) as (b' & -> & B). eauto. Qed.
  Lemma keeps_bseek q : 0 <= q -> keeps (on_b (b_seek (tc_kind c) q 0)).
  Proof. intros Hq. apply keeps_on_b. intros b p H. destruct (bst_seek _ _ _ _ q H Hq) as (b' & -> & B). eauto. Qed.
  Lemma keeps_fuel : keeps chunk_fuel.
  Proof.
    intros t S. unfold chunk_fuel. revert t S. assert (A : forall t0 : tstate, keeps (n <- on_b read_fuel ;; ret (n + length (unread (t_b t0)) + length (b_wbuf (t_b t0)) + 2)%nat)).
    { intros t0. apply keeps_bind; [|intros n; apply keeps_ret]. apply keeps_on_b. intros b p H. rewrite (bst_fuel _ _ _ _ H). eauto. }
    intros t S. exact (A t t S).
  Qed.
  Lemma keeps_check : keeps t_check_closed.
  Proof. intros t S. unfold t_check_closed. destruct (f_closed (b_raw (t_b t))); exact S. Qed.
  Lemma keeps_readable : keeps (t_check_readable c).
  Proof. unfold t_check_readable. destruct (tc_kind c); try apply keeps_check. apply keeps_raise. Qed.
  Lemma keeps_make : keeps (t_make_decoder c).
  Proof. apply keeps_upd. intros t. destruct (t_dec t); reflexivity. Qed.
  Lemma keeps_decode x fin : keeps (t_decode c x fin).
  Proof. apply keeps_pure. intros t. unfold t_decode. destruct (dec_decode c (t_decoder c t) x fin) as [[o d]|]; reflexivity. Qed.
  Lemma keeps_get n : keeps (get_chars n).
  Proof. apply keeps_pure. reflexivity. Qed.
  Lemma keeps_rewind n : keeps (rewind_chars n).
  Proof. apply keeps_pure. intros t. unfold rewind_chars. destruct (t_used t <? n)%nat; reflexivity. Qed.

  Ltac kp := repeat first
    [ apply keeps_ret | apply keeps_raise | apply keeps_read1 | apply keeps_read_all | apply keeps_flush | apply keeps_btell | apply keeps_fuel
    | apply keeps_check | apply keeps_readable | apply keeps_make | apply keeps_decode | apply keeps_get | apply keeps_rewind
    | apply keeps_if | apply keeps_bind; [|intros ?] | (apply keeps_upd; intros ?; reflexivity) ].

  Lemma keeps_chunk : keeps (read_chunk c).
  Proof.
    intros t S. unfold read_chunk. destruct (t_dec t) as [d|]; [|exact S]. destruct (dec_getstate c d) as [buf fl].
    match goal with |- sound (snd (?m t)) => assert (A : keeps m); [|exact (A t S)] end.
    apply keeps_bind; [apply keeps_read1|]. intros [ch|]; [|apply keeps_raise]. cbv zeta. kp.
  Qed.
  Lemma keeps_read_loop : forall fuel size res, keeps (read_loop fuel c size res).
  Proof.
    induction fuel as [|k IH]; intros size res; cbn [read_loop]; [apply keeps_raise|]. apply keeps_if; [|apply keeps_ret].
    apply keeps_bind; [apply keeps_chunk|]. intros more. apply keeps_bind; [apply keeps_get|]. intros out. apply keeps_if; [apply IH|apply keeps_ret].
  Qed.
  Lemma keeps_t_read n : keeps (t_read c n).
  Proof.
    unfold t_read. apply keeps_bind; [apply keeps_readable|]. intros _. apply keeps_bind; [apply keeps_make|]. intros _. apply keeps_if.
    - apply keeps_bind; [apply keeps_get|]. intros a. apply keeps_bind; [apply keeps_read_all|]. intros [b|]; [|apply keeps_raise].
      apply keeps_bind; [apply keeps_decode|]. intros r. apply keeps_bind; [|intros _; apply keeps_ret]. apply keeps_upd. intros t. destruct (t_snap t); reflexivity.
    - apply keeps_bind; [apply keeps_get|]. intros r. apply keeps_bind; [apply keeps_fuel|]. intros f. apply keeps_read_loop.
  Qed.
  Lemma keeps_fetch : forall fuel, keeps (fetch fuel c).
  Proof.
    induction fuel as [|k IH]; cbn [fetch]; [apply keeps_raise|]. apply keeps_bind; [apply keeps_chunk|]. intros more t S.
    destruct (negb more); [exact S|]. destruct (t_chars t); [apply IH; exact S|exact S].
  Qed.
  Lemma keeps_line_loop : forall fuel size line start, keeps (tline_loop fuel c size line start).
  Proof.
    induction fuel as [|k IH]; intros size line start; cbn [tline_loop]; [apply keeps_raise|].
    destruct (find_end c line start); [kp|]. apply keeps_if; [kp|]. apply keeps_bind; [apply keeps_fuel|]. intros f. apply keeps_bind; [apply keeps_fetch|]. intros _ t S.
    destruct (t_chars t) eqn:Et; [exact S|]. match goal with |- sound (snd (?m t)) => assert (A : keeps m); [|exact (A t S)] end.
    apply keeps_bind; [apply keeps_get|]. intros more. apply IH.
  Qed.
  Lemma keeps_readline n : keeps (t_readline c n).
  Proof.
    unfold t_readline. apply keeps_bind; [apply keeps_check|]. intros _. apply keeps_bind; [apply keeps_get|]. intros line.
    apply keeps_bind; [apply keeps_make|]. intros _. apply keeps_bind; [apply keeps_fuel|]. intros f. apply keeps_line_loop.
  Qed.
  Lemma keeps_next : keeps (t_next c).
  Proof.
    unfold t_next. apply keeps_bind; [apply keeps_upd; reflexivity|]. intros _. apply keeps_bind; [apply keeps_readline|]. intros [|x l]; [|apply keeps_ret].
    apply keeps_bind; [apply keeps_upd; reflexivity|]. intros _. apply keeps_ret.
  Qed.
  Lemma keeps_tell guess : keeps (t_tell guess c).
  Proof.
    unfold t_tell. apply keeps_bind; [apply keeps_pure; intros t; destruct (negb (t_seekable t)); [reflexivity|]; destruct (negb (t_telling t)); reflexivity|]. intros _.
    apply keeps_bind; [apply keeps_flush|]. intros _. apply keeps_bind; [apply keeps_btell|]. intros p. apply keeps_pure. intros t.
    destruct (t_dec t) as [d|]; [|destruct (t_chars t); reflexivity]. destruct (t_snap t) as [[fl x]|]; [|destruct (t_chars t); reflexivity].
    cbv zeta. destruct (t_used t =? 0)%nat; [reflexivity|]. match goal with |- context [match ?r with Ok k => _ | Err e => _ end] => destruct r end; reflexivity.
  Qed.
  Lemma keeps_seek_to n : keeps (t_seek_to c n).
  Proof.
    unfold t_seek_to. apply keeps_bind; [kp|]. intros _. apply keeps_bind; [apply keeps_flush|]. intros _. cbv zeta.
    assert (P : 0 <= ck_pos (unpack_cookie n)) by (apply Z.mod_pos_bound; reflexivity).
    assert (F : 0 <= ck_feed (unpack_cookie n)) by (apply Z.mod_pos_bound; reflexivity).
    apply keeps_bind; [apply keeps_bseek; exact P|]. intros _. apply keeps_bind; [apply keeps_upd; reflexivity|]. intros _.
    apply keeps_bind; [apply keeps_upd; intros t; destruct (t_dec t); [destruct (n =? 0)|destruct (negb (ck_flags (unpack_cookie n) =? 0) || negb (ck_skip (unpack_cookie n) =? 0))]; reflexivity|].
    intros _. apply keeps_bind; [|intros _; unfold reset_encoder; kp]. apply keeps_if; [apply keeps_ret|].
    apply keeps_bind; [apply keeps_read_n; exact F|]. intros [x|]; [|apply keeps_raise]. kp.
  Qed.
  Lemma keeps_seek guess n : keeps (t_seek guess c n 0).
  Proof.
    unfold t_seek. change (0 =? 1) with false. change (0 =? 2) with false. change (0 =? 0) with true. cbn [negb].
    apply keeps_bind; [apply keeps_check|]. intros _. apply keeps_bind; [apply keeps_pure; intros t; destruct (negb (t_seekable t)); reflexivity|]. intros _. apply keeps_seek_to.
  Qed.
  Lemma keeps_seek_end guess : keeps (t_seek guess c 0 2).
  Proof.
    unfold t_seek. change (2 =? 1) with false. change (2 =? 2) with true. change (0 =? 0) with true. cbn [negb].
    apply keeps_bind; [apply keeps_check|]. intros _. apply keeps_bind; [apply keeps_pure; intros t; destruct (negb (t_seekable t)); reflexivity|]. intros _.
    apply keeps_bind; [apply keeps_flush|]. intros _. apply keeps_bind.
    - apply keeps_on_b. intros b p H. destruct (bst_seek_end _ _ _ _ H) as (b' & -> & B). eauto.
    - intros q. apply keeps_bind; [apply keeps_upd; reflexivity|]. intros _. apply keeps_bind; [apply keeps_upd; intros t; destruct (t_dec t); reflexivity|]. intros _.
      unfold reset_encoder. kp.
  Qed.

  Lemma keeps_run guess op t : sound t -> sound (snd (run_top guess c op t)).
  Proof.
    intros S. destruct op as [n|n| | |n|]; cbn [run_top].
    - pose proof (keeps_t_read n t S) as H. destruct (t_read c n t) as [[a|e] t1]; exact H.
    - pose proof (keeps_readline n t S) as H. destruct (t_readline c n t) as [[a|e] t1]; exact H.
    - pose proof (keeps_next t S) as H. destruct (t_next c t) as [[[a|]|e] t1]; exact H.
    - pose proof (keeps_tell guess t S) as H. destruct (t_tell guess c t) as [[a|e] t1]; exact H.
    - pose proof (keeps_seek guess n t S) as H. destruct (t_seek guess c n 0 t) as [[a|e] t1]; exact H.
    - pose proof (keeps_seek_end guess t S) as H. destruct (t_seek guess c 0 2 t) as [[a|e] t1]; exact H.
  Qed.
End Keeps.
