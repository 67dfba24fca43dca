(** C70: writing to text streams.  C71: closing them, and what they do when closed. *)
From Coq Require Import ZArith Ascii String List Bool Lia.
From Verif Require Import M_Base M_Modes M_Registry M_Kernel M_World M_Raw M_Buffered M_Newline M_Text S_Bytes S_Raw S_Demo S_Buffered S_Newline S_Text S_Codecs S_TextFiles
  S_Confined S_TextOut P_Bytes P_Raw P_Buffered P_BufOps P_BufRun P_Newline P_Decode P_TextBase P_TextFiles P_Frame P_Close P_Files C_Buffered C_Closed C_Text C_TextFiles.
Import ListNotations.
Open Scope Z_scope.
Open Scope list_scope.

(** * One call *)
Definition enc_of (c : tconf) (t : tstate) : Z := match t_enc t with Some e => e | None => cd_e0 (tc_codec c) end.
Definition line_end (c : tconf) (s : list Z) : bool :=
  tc_line_buffering c && (((writetranslate c || tc_line_buffering c) && has_char LF s) || has_char CR (to_encode c s)).

Lemma t_write_run c s t : f_closed (b_raw (t_b t)) = false ->
  match cd_encode (tc_codec c) (enc_of c t) (to_encode c s) with
  | None => exists t', t_write c s t = (Err EValue, t') /\ t_b t' = t_b t /\ enc_of c t' = enc_of c t
  | Some (d, e') => exists r t', t_write c s t = (r, t') /\ after_write c (line_end c s) d (len s) (t_b t) = (r, t_b t') /\ enc_of c t' = e'
  end.
Proof.
  intros Hc. unfold t_write. rewrite (bind_T _ _ _ _ _ (t_check_closed_ok _ Hc)). fold (to_encode c s). cbv zeta. fold (enc_of c t).
  destruct (cd_encode (tc_codec c) (enc_of c t) (to_encode c s)) as [[d e']|] eqn:E; [|eexists; split; [reflexivity|split; reflexivity]].
  fold (line_end c s). unfold after_write, bind, upd_t, on_b. cbn [set_enc t_b].
  destruct (b_write (tc_kind c) d (t_b t)) as [[n|x] b1]; [|eexists _, _; split; [reflexivity|split; reflexivity]].
  destruct (line_end c s).
  - unfold t_flush, bind, on_b, upd_t. cbn [set_b t_b].
    destruct (b_flush (tc_kind c) b1) as [[[]|x] b2]; [|eexists _, _; split; [reflexivity|split; reflexivity]].
    eexists _, _. split; [reflexivity|]. destruct t as [en de ch us sn te ra b]. destruct sn, de; split; reflexivity.
  - eexists _, _. split; [reflexivity|]. destruct t as [en de ch us sn te ra b]. destruct sn, de; split; reflexivity.
Qed.
Lemma t_flush_run c t : exists r t', t_flush c t = (r, t') /\ b_flush (tc_kind c) (t_b t) = (r, t_b t') /\ enc_of c t' = enc_of c t.
Proof.
  unfold t_flush, bind, on_b, upd_t. destruct (b_flush (tc_kind c) (t_b t)) as [[[]|x] b]; eexists _, _; (split; [reflexivity|]); split; reflexivity.
Qed.

Lemma line_end_iff c s : (tc_newline c = NlNone -> tc_linesep c <> []) ->
  line_end c s = true <-> tc_line_buffering c = true /\ ends_line (tc_newline c) (tc_linesep c) s.
Proof.
  intros Sep. unfold line_end, ends_line. rewrite (to_encode_eq c s Sep), andb_true_iff, orb_true_iff, andb_true_iff, orb_true_iff, !has_char_iff.
  change LF with 10. change CR with 13. intuition.
Qed.

Lemma puts_put app c p d : 0 <= p -> puts app c p d (put app c p d) (after app c p d).
Proof.
  intros Hp. destruct app; [rewrite put_end; now apply Puts_end|].
  change (puts false c p d (write_at c (Z.to_nat p) d) (p + len d)). apply Puts_here; auto. now apply stored_write.
Qed.
Lemma puts_nil app c p : 0 <= p -> puts app c p [] c p.
Proof.
  intros H. destruct app; [rewrite <- (app_nil_r c) at 2; now apply Puts_end|].
  rewrite <- (Z.add_0_r p) at 2. change 0 with (len (@nil Z)) at 1. apply Puts_here; auto. rewrite <- (write_at_nil c (Z.to_nat p)) at 2. now apply stored_write.
Qed.

(** What is pending, given what the stream stands for. *)
Definition pending_in (app : bool) (w : world) (u : uid) (C : list Z) (d : list Z) : Prop :=
  exists c0 q q', holds_file w u c0 /\ puts app c0 q d C q'.
Lemma rep_pending k b o i C p : rep k b o i C p -> pending_in (o_app o) (b_w b) (o_uid o) C (b_wbuf b).
Proof.
  intros R. pose proof (rp_live _ _ _ _ _ _ R) as L. exists (n_data i), (epos b o i). rewrite (rp_c _ _ _ _ _ _ R).
  pose proof (epos_nn b _ _ _ _ L) as Hn.
  assert (H : holds_file (b_w b) (o_uid o) (n_data i)) by (exists i; split; [apply (lv_ino _ _ _ _ L)|reflexivity]).
  destruct (o_app o) eqn:A.
  - exists 0. split; [exact H|]. unfold epos. destruct (b_wbuf b) as [|x d]; [rewrite write_at_nil; rewrite <- (app_nil_r (n_data i)) at 2; now apply Puts_end|].
    unfold write_pos. rewrite A. unfold len. rewrite Nat2Z.id, write_at_end. now apply Puts_end.
  - eexists. split; [exact H|]. apply Puts_here; auto. now apply stored_write.
Qed.
Lemma rep_settled k b o i C p : rep k b o i C p -> b_wbuf b = [] -> holds_file (b_w b) (o_uid o) C.
Proof.
  intros R W. destruct (rep_flat _ _ _ _ _ _ R W) as [D _]. exists i. split; [apply (lv_ino _ _ _ _ (rp_live _ _ _ _ _ _ R))|exact D].
Qed.

Section Run.
Variable c : tconf.
Hypothesis Cw : can_write (tc_kind c) = true.
Hypothesis Sep : tc_newline c = NlNone -> tc_linesep c <> [].
Notation step := (tostep (tc_codec c) (tc_newline c) (tc_linesep c) (tc_line_buffering c)).
Notation runs := (toruns (tc_codec c) (tc_newline c) (tc_linesep c) (tc_line_buffering c)).
Notation settled := (settles (tc_newline c) (tc_linesep c) (tc_line_buffering c)).

Lemma tostep_ok t o i C p op : rep (tc_kind c) (t_b t) o i C p ->
  forall out t', run_wop c op t = (out, t') ->
  exists o' i' C' p', rep (tc_kind c) (t_b t') o' i' C' p' /\ evolves (t_b t) (t_b t') o o'
    /\ step (o_app o) (C, p, enc_of c t) op out (C', p', enc_of c t')
    /\ (settled op out -> b_wbuf (t_b t') = []).
Proof.
  intros R out t' E. pose proof (rp_nn _ _ _ _ _ _ R) as Pn. assert (T : tameb True (t_b t) o) by (left; auto).
  destruct op as [s|]; cbn [run_wop] in E.
  - pose proof (t_write_run c s t (lv_open _ _ _ _ (rp_live _ _ _ _ _ _ R))) as W. rewrite (to_encode_eq c s Sep) in W.
    destruct (cd_encode (tc_codec c) (enc_of c t) _) as [[d e']|] eqn:Ee.
    2:{ destruct W as (t1 & E1 & B1 & N1). rewrite E1 in E. injection E as <- <-. exists o, i, C, p. rewrite B1, N1.
        split; [exact R|]. split; [apply evolves_refl|]. split; [now apply TO_refused|]. intros X. inversion X. }
    destruct W as (r & t1 & E1 & A1 & <-). rewrite E1 in E. assert (t1 = t') as -> by congruence.
    unfold after_write in A1. unfold bind at 1 in A1.
    destruct (b_write_ok True (tc_kind c) (t_b t) o i C p d R T Cw) as (rw & b1 & o1 & i1 & c1 & p1 & Ew & R1 & V1 & _ & Wn & _). rewrite Ew in A1.
    assert (Inv : forall x, rw = Err x -> r = Err x /\ b1 = t_b t') by (intros x ->; injection A1 as <- <-; auto).
    inversion Wn; subst rw c1 p1.
    + (* written *)
      pose proof (puts_put (o_app o) C p d Pn) as P. unfold bind in A1. destruct (line_end c s) eqn:Le.
      * destruct (b_flush_ok True (tc_kind c) b1 o1 i1 _ _ R1 ltac:(left; auto)) as (r2 & b2 & o2 & i2 & E2 & [R2 V2 _ _ _ C2]). rewrite E2 in A1.
        apply (line_end_iff c s Sep) in Le. destruct Le as [Lb Le].
        destruct C2 as [[-> W2]|(_ & _ & x & -> & Hx)]; injection A1 as <- <-; injection E as <-.
        -- exists o2, i2, (put (o_app o) C p d), (after (o_app o) C p d). split; [exact R2|]. split; [eapply evolves_trans; eauto|].
           split; [eapply TO_write; eauto|auto].
        -- exists o2, i2, (put (o_app o) C p d), (after (o_app o) C p d). split; [exact R2|]. split; [eapply evolves_trans; eauto|].
           split; [|intros X; inversion X]. destruct Hx as [(n & ->)| ->]; [eapply TO_all; eauto|eapply TO_line_block; eauto].
      * injection A1 as <- <-; injection E as <-. exists o1, i1, (put (o_app o) C p d), (after (o_app o) C p d). split; [exact R1|]. split; [exact V1|].
        split; [eapply TO_write; eauto|]. intros X. inversion X; subst. rewrite (proj2 (line_end_iff c s Sep)) in Le by auto. discriminate.
    + destruct (Inv _ eq_refl) as [-> ->]. injection E as <-. exists o1, i1, C, p. split; [exact R1|]. split; [exact V1|].
      split; [|intros X; inversion X]. match goal with H : os_or_block _ |- _ => destruct H as [(n & ->)| ->] end; [eapply TO_none; eauto|].
      eapply TO_block; [exact Ee| |now apply puts_nil]. pose proof (len_nonneg d). lia.
    + destruct (Inv _ eq_refl) as [-> ->]. injection E as <-. eexists o1, i1, _, _. split; [exact R1|]. split; [exact V1|].
      split; [|intros X; inversion X]. eapply TO_all; [exact Ee|]. now apply puts_put.
    + destruct (Inv _ eq_refl) as [-> ->]. injection E as <-. eexists o1, i1, _, _. split; [exact R1|]. split; [exact V1|].
      split; [|intros X; inversion X]. eapply TO_block; [exact Ee|auto|]. now apply puts_put.
  - destruct (t_flush_run c t) as (r & t1 & E1 & B1 & N1). rewrite E1 in E. assert (t1 = t') as -> by congruence. rewrite N1.
    destruct (b_flush_ok True (tc_kind c) (t_b t) o i C p R T) as (r2 & b2 & o2 & i2 & E2 & [R2 V2 _ _ _ C2]). rewrite B1 in E2. injection E2 as <- <-.
    exists o2, i2, C, p. split; [exact R2|]. split; [exact V2|].
    destruct C2 as [[-> W2]|(_ & _ & x & -> & Hx)]; injection E as <-; (split; [constructor|]).
    + auto.
    + exact Hx.
    + intros X. inversion X.
Qed.

Lemma toruns_ok : forall ops t o i C p, rep (tc_kind c) (t_b t) o i C p ->
  forall outs t', run_wops c ops t = (outs, t') ->
  exists o' i' C' p', rep (tc_kind c) (t_b t') o' i' C' p' /\ evolves (t_b t) (t_b t') o o'
    /\ runs (o_app o) (C, p, enc_of c t) ops outs (C', p', enc_of c t')
    /\ (forall ops0 op outs0 out, ops = ops0 ++ [op] -> outs = outs0 ++ [out] -> settled op out -> b_wbuf (t_b t') = []).
Proof.
  induction ops as [|op ops IH]; intros t o i C p R outs t' E; cbn [run_wops] in E.
  - injection E as <- <-. exists o, i, C, p. split; [exact R|]. split; [apply evolves_refl|]. split; [constructor|]. intros [|? ?] ? ? ? X; discriminate.
  - destruct (run_wop c op t) as [out t1] eqn:E1. destruct (run_wops c ops t1) as [outs1 t2] eqn:E2. injection E as <- <-.
    destruct (tostep_ok t o i C p op R out t1 E1) as (o1 & i1 & C1 & p1 & R1 & V1 & S1 & F1).
    destruct (IH t1 o1 i1 C1 p1 R1 outs1 t2 E2) as (o2 & i2 & C2 & p2 & R2 & V2 & S2 & F2).
    exists o2, i2, C2, p2. split; [exact R2|]. split; [eapply evolves_trans; eauto|].
    rewrite (so_app _ _ (ev_o _ _ _ _ V1)) in S2. split; [econstructor; eauto|].
    intros ops0 op0 outs0 out0 Ho Hu Hs. destruct ops0 as [|x ops0].
    + injection Ho as -> ->. cbn [run_wops] in E2. injection E2 as <- <-. destruct outs0 as [|y [|? ?]]; try discriminate Hu. injection Hu as ->. auto.
    + injection Ho as <- ->. destruct outs0 as [|y outs0].
      * injection Hu as -> ->. destruct (ops0 ++ [op0]) as [|z l] eqn:Z; [destruct ops0; discriminate|]. cbn [run_wops] in E2.
        destruct (run_wop c z t1) as [? ?]. destruct (run_wops c l _) as [? ?]. discriminate.
      * injection Hu as <- ->. eapply F2; eauto.
Qed.
End Run.

(** * C70 *)
(** The setting: a text stream, just created over a regular file, that can be written.  Nothing is asked of system calls. *)
Record writing (c : tconf) (f : rawio) (size : Z) (w : world) (o : ofd) (i : inode) : Prop := mkWriting {
  wg_live : live f w o i; wg_size : 0 < size; wg_kind : can_write (tc_kind c) = true; wg_wr : f_writable f = true;
  wg_rd : can_read (tc_kind c) = true -> f_readable f = true; wg_sep : tc_newline c = NlNone -> tc_linesep c <> [] }.

Lemma writing_rep c f size w o i : writing c f size w o i ->
  rep (tc_kind c) (t_b (text_fresh f size w)) o i (n_data i) (o_pos o) /\ enc_of c (text_fresh f size w) = enc_start (tc_codec c) o.
Proof.
  intros [L S K W Rd Sep]. split; [apply fresh_rep; auto|].
  unfold text_fresh, t_fresh, enc_start, enc_of. cbn [fresh b_raw b_w t_enc]. rewrite (lv_seek _ _ _ _ L), W, (lv_fd _ _ _ _ L). cbn [andb].
  destruct (o_pos o =? 0); reflexivity.
Qed.

(** Whatever system calls do, the stream behaves as the abstract machine; the file and what is
    pending make up its content; a flush that succeeds leaves nothing pending. *)
Theorem C70_text_writer c f size ops w o i outs t' : writing c f size w o i ->
  run_wops c ops (text_fresh f size w) = (outs, t') ->
  exists C p e,
    toruns (tc_codec c) (tc_newline c) (tc_linesep c) (tc_line_buffering c) (o_app o)
      (n_data i, o_pos o, enc_start (tc_codec c) o) ops outs (C, p, e)
    /\ pending_in (o_app o) (b_w (t_b t')) (o_uid o) C (b_wbuf (t_b t'))
    /\ (forall r t2, t_flush c t' = (r, t2) ->
          pending_in (o_app o) (b_w (t_b t2)) (o_uid o) C (b_wbuf (t_b t2)) /\ (r = Ok tt -> holds_file (b_w (t_b t2)) (o_uid o) C)).
Proof.
  intros Wg E. destruct (writing_rep _ _ _ _ _ _ Wg) as [R En].
  destruct (toruns_ok c (wg_kind _ _ _ _ _ _ Wg) (wg_sep _ _ _ _ _ _ Wg) ops _ _ _ _ _ R outs t' E) as (o' & i' & C & p & R' & V' & X & _).
  rewrite En in X. exists C, p, (enc_of c t'). split; [exact X|].
  pose proof (so_uid _ _ (ev_o _ _ _ _ V')) as U. pose proof (so_app _ _ (ev_o _ _ _ _ V')) as A. rewrite <- U, <- A.
  split; [eapply rep_pending; eauto|]. intros r t2 Ef.
  destruct (t_flush_run c t') as (r1 & t1 & E1 & B1 & _). rewrite Ef in E1. injection E1 as <- <-.
  destruct (b_flush_ok True (tc_kind c) (t_b t') o' i' C p R' ltac:(left; auto)) as (r2 & b2 & o2 & i2 & E2 & [R2 V2 _ _ _ C2]).
  rewrite B1 in E2. injection E2 as <- <-.
  rewrite <- (so_uid _ _ (ev_o _ _ _ _ V2)), <- (so_app _ _ (ev_o _ _ _ _ V2)).
  split; [eapply rep_pending; eauto|]. intros ->. destruct C2 as [[_ W2]|(_ & _ & x & X2 & _)]; [|discriminate]. eapply rep_settled; eauto.
Qed.

(** After a flush that succeeds, and with line buffering after the write of a line's end that
    succeeds, all of it is in the file. *)
Theorem C70_settled c f size ops op w o i outs out t' : writing c f size w o i ->
  run_wops c (ops ++ [op]) (text_fresh f size w) = (outs ++ [out], t') ->
  settles (tc_newline c) (tc_linesep c) (tc_line_buffering c) op out ->
  exists C p e,
    toruns (tc_codec c) (tc_newline c) (tc_linesep c) (tc_line_buffering c) (o_app o)
      (n_data i, o_pos o, enc_start (tc_codec c) o) (ops ++ [op]) (outs ++ [out]) (C, p, e)
    /\ holds_file (b_w (t_b t')) (o_uid o) C.
Proof.
  intros Wg E Hs. destruct (writing_rep _ _ _ _ _ _ Wg) as [R En].
  destruct (toruns_ok c (wg_kind _ _ _ _ _ _ Wg) (wg_sep _ _ _ _ _ _ Wg) _ _ _ _ _ _ R _ t' E) as (o' & i' & C & p & R' & V' & X & F).
  rewrite En in X. exists C, p, (enc_of c t'). split; [exact X|]. rewrite <- (so_uid _ _ (ev_o _ _ _ _ V')). eapply rep_settled; eauto.
Qed.

(** ** The text in the file *)
Lemma as_written_app nl sep a b : as_written nl sep (a ++ b) = as_written nl sep a ++ as_written nl sep b.
Proof. apply flat_map_app. Qed.
Lemma puts_puts app c p d1 c1 p1 d2 c2 p2 : puts app c p d1 c1 p1 -> puts app c1 p1 d2 c2 p2 -> 0 <= p -> puts app c p (d1 ++ d2) c2 p2.
Proof.
  intros H1 H2 Hp. inversion H1; subst; inversion H2; subst; try discriminate.
  - rewrite <- Z.add_assoc, <- len_app. apply Puts_here; auto.
    match goal with X : stored_at c p d1 c1, Y : stored_at c1 _ d2 c2 |- _ => rename X into S1; rename Y into S2 end.
    apply (stored_at_fun _ _ _ _ _ (stored_write c p d1 Hp)) in S1. subst c1.
    assert (Hp1 : 0 <= p + len d1) by (pose proof (len_nonneg d1); lia).
    apply (stored_at_fun _ _ _ _ _ (stored_write (write_at c (Z.to_nat p) d1) (p + len d1) d2 Hp1)) in S2. subst c2.
    replace (write_at (write_at c (Z.to_nat p) d1) (Z.to_nat (p + len d1)) d2) with (write_at c (Z.to_nat p) (d1 ++ d2)); [now apply stored_write|].
    replace (Z.to_nat (p + len d1)) with (Z.to_nat p + length d1)%nat by (unfold len; lia). symmetry. apply write_at_app.
  - rewrite <- app_assoc. now apply Puts_end.
Qed.

(** All calls succeed: what they put in the file is the encoding of the text given to them,
    which is encoded as one text. *)
Lemma toruns_text cd nl sep lb app : streaming cd -> forall ops outs c p e c' p' e',
  toruns cd nl sep lb app (c, p, e) ops outs (c', p', e') -> Forall succeeds outs -> 0 <= p ->
  (text_given ops = [] /\ (forall s, In (WoText s) ops -> False) /\ c' = c /\ e' = e)
  \/ exists d, cd_encode cd e (as_written nl sep (text_given ops)) = Some (d, e') /\ puts app c p d c' p'.
Proof.
  intros St. induction ops as [|op ops IH]; intros outs c p e c' p' e' H F Hp; inversion H; subst.
  - left. split; [reflexivity|]. split; [intros ? []|auto].
  - inversion F; subst. destruct st1 as [[c1 p1] e1].
    match goal with X : tostep _ _ _ _ _ _ _ _ _ |- _ => inversion X; subst end; try contradiction.
    + (* write *)
      right. cbn [text_given]. rewrite as_written_app.
      assert (Hp1 : app = false -> 0 <= p1) by (intros ->; match goal with P : puts _ _ _ _ _ _ |- _ => inversion P; subst end; [pose proof (len_nonneg d); lia|discriminate]).
      destruct app.
      * (* the cursor plays no part *)
        assert (G : forall c1 p1 c2 p2 d, puts true c1 p1 d c2 p2 -> forall q q', puts true c1 q d c2 q') by (intros ? ? ? ? ? G q q'; inversion G; subst; [discriminate|now apply Puts_end]).
        assert (Mv : forall ops outs s s', toruns cd nl sep lb true s ops outs s' -> forall c p e c' p' e', s = (c, p, e) -> s' = (c', p', e') -> forall q, exists q', toruns cd nl sep lb true (c, q, e) ops outs (c', q', e')).
        { clear - G. induction 1 as [st|st op out st1 ops outs st2 S R IHr]; intros c p e c' p' e' E1 E2 q.
          - subst. injection E2 as -> -> ->. exists q. constructor.
          - subst. destruct st1 as [[c1 p1] e1].
            assert (exists q1, tostep cd nl sep lb true (c, q, e) op out (c1, q1, e1)) as (q1 & S').
            { inversion S; subst; exists q; [eapply TO_write|eapply TO_refused|eapply TO_none|eapply TO_all|eapply TO_block|eapply TO_line_block|apply TO_flush|apply TO_flush_fail]; eauto. }
            destruct (IHr _ _ _ _ _ _ eq_refl eq_refl q1) as (q' & R'). exists q'. econstructor; eauto. }
        match goal with X : toruns _ _ _ _ _ (c1, p1, e1) ops _ _ |- _ => destruct (Mv _ _ _ _ X _ _ _ _ _ _ eq_refl eq_refl 0) as (q' & X') end.
        destruct (IH _ _ _ _ _ _ _ X' ltac:(eassumption) ltac:(lia)) as [(-> & _ & -> & ->)|(d2 & E2 & P2)].
        -- exists d. cbn. rewrite app_nil_r. split; [assumption|]. eapply G; eauto.
        -- exists (d ++ d2). split; [eapply St; eauto|]. eapply puts_puts; eauto.
      * match goal with X : toruns _ _ _ _ _ (c1, p1, e1) ops _ _ |- _ => destruct (IH _ _ _ _ _ _ _ X ltac:(eassumption) (Hp1 eq_refl)) as [(E0 & N0 & -> & ->)|(d2 & E2 & P2)] end.
        -- exists d. rewrite E0. cbn. rewrite app_nil_r. split; [assumption|].
           assert (p' = p1) as ->; [|assumption].
           match goal with X : toruns _ _ _ _ _ _ ops _ _ |- _ => revert X end. match goal with X : Forall _ _ |- _ => revert X end. clear - N0. revert outs0 c1 p1 e1.
           induction ops as [|op ops IH]; intros outs c1 p1 e1 F H; inversion H; subst; [reflexivity|].
           match goal with X : tostep _ _ _ _ _ _ _ _ _ |- _ => inversion X; subst end; try (exfalso; eapply N0; left; reflexivity).
           ++ inversion F; subst. eapply IH; eauto. intros s Hs. eapply N0. right. exact Hs.
           ++ inversion F; subst. contradiction.
        -- exists (d ++ d2). split; [eapply St; eauto|]. eapply puts_puts; eauto.
    + (* flush *)
      match goal with X : toruns _ _ _ _ _ _ ops _ _ |- _ => destruct (IH _ _ _ _ _ _ _ X ltac:(eassumption) Hp) as [(E0 & N0 & -> & ->)|(d2 & E2 & P2)] end.
      * left. split; [exact E0|]. split; [|auto]. intros s [X|X]; [discriminate|eauto].
      * right. eauto.
Qed.

(** All calls succeed and the last one settles: the file holds the encoding of the whole text at the
    place where the stream started, or at the end in append mode. *)
Theorem C70_text_in_file c f size ops op w o i outs out t' : writing c f size w o i -> streaming (tc_codec c) ->
  run_wops c (ops ++ [op]) (text_fresh f size w) = (outs ++ [out], t') -> Forall succeeds (outs ++ [out]) ->
  settles (tc_newline c) (tc_linesep c) (tc_line_buffering c) op out -> text_given (ops ++ [op]) <> [] ->
  exists d e C p, cd_encode (tc_codec c) (enc_start (tc_codec c) o) (as_written (tc_newline c) (tc_linesep c) (text_given (ops ++ [op]))) = Some (d, e)
    /\ puts (o_app o) (n_data i) (o_pos o) d C p /\ holds_file (b_w (t_b t')) (o_uid o) C.
Proof.
  intros Wg St E F Hs Ne. destruct (C70_settled _ _ _ _ _ _ _ _ _ _ _ Wg E Hs) as (C & p & e & X & H).
  destruct (toruns_text _ _ _ _ _ St _ _ _ _ _ _ _ _ X F (lv_pos _ _ _ _ (wg_live _ _ _ _ _ _ Wg))) as [(Y & _)|(d & Ed & P)]; [contradiction|].
  exists d, e, C, p. auto.
Qed.

(** In particular a new file holds the text, and nothing else. *)
Theorem C70_new_file c f size ops op w o i outs out t' : writing c f size w o i -> streaming (tc_codec c) -> n_data i = [] -> o_pos o = 0 ->
  run_wops c (ops ++ [op]) (text_fresh f size w) = (outs ++ [out], t') -> Forall succeeds (outs ++ [out]) ->
  settles (tc_newline c) (tc_linesep c) (tc_line_buffering c) op out -> text_given (ops ++ [op]) <> [] ->
  exists C, holds_file (b_w (t_b t')) (o_uid o) C /\ bytes_of (tc_codec c) (as_written (tc_newline c) (tc_linesep c) (text_given (ops ++ [op]))) C.
Proof.
  intros Wg St D Po E F Hs Ne. destruct (C70_text_in_file _ _ _ _ _ _ _ _ _ _ _ Wg St E F Hs Ne) as (d & e & C & p & Ed & P & H).
  exists C. split; [exact H|]. right. exists e. unfold enc_start in Ed. rewrite Po in Ed. change (0 =? 0) with true in Ed. cbv iota in Ed.
  rewrite D, Po in P. assert (C = d) as ->.
  { inversion P; subst; [|reflexivity]. match goal with X : stored_at _ _ _ _ |- _ => apply (stored_at_fun _ _ _ _ _ (stored_write [] 0 d (Z.le_refl 0))) in X; subst C end.
    change (write_at [] (Z.to_nat 0) d) with (write_at [] (Z.to_nat (len (@nil Z))) d). apply write_at_len. }
  exact Ed.
Qed.

Lemma simple_streaming next enc1 : streaming (simple_codec next enc1).
Proof.
  intros e s1 b1 e1 s2 b2 e2. cbn [simple_codec cd_encode]. destruct (encode_all enc1 s1) eqn:E1; [|discriminate]. intros [= <- <-].
  destruct (encode_all enc1 s2) eqn:E2; [|discriminate]. intros [= <- <-]. now rewrite (encode_all_app _ _ _ _ _ E1 E2).
Qed.
Theorem C70_codecs : streaming latin1 /\ streaming utf8 /\ streaming utf8_sig.
Proof.
  split; [apply simple_streaming|]. split; [apply simple_streaming|].
  intros e s1 b1 e1 s2 b2 e2. cbn [utf8_sig cd_encode]. destruct (encode_all utf8_enc1 s1) eqn:E1; [|discriminate]. intros [= <- <-].
  destruct (encode_all utf8_enc1 s2) eqn:E2; [|discriminate]. change (0 =? 0) with true. cbv iota. intros [= <- <-].
  rewrite (encode_all_app _ _ _ _ _ E1 E2), app_assoc. reflexivity.
Qed.

(** ** Where it stops *)
Definition line_conf (k : bkind) (nl : nlarg) : tconf := mkTC utf8 nl [10] true k.
(** The exception of a write that would block tells how many bytes were taken: not with line buffering.
    It says 0 here, and two bytes were taken: a program that writes them again gets them twice. *)
Definition blocking_tells : Prop := forall c f size w o i s n t' t2, writing c f size w o i -> n_data i = [] -> o_pos o = 0 ->
  t_write c s (text_fresh f size w) = (Err (EBlocking n), t') -> t_flush c t' = (Ok tt, t2) ->
  exists C, holds_file (b_w (t_b t2)) (o_uid o) C /\ len C = n.
Definition line_block : rawio * world := demo_open "f"%string false true false (demo [] [IoFull; IoErr EAGAIN] [] []).
Lemma line_block_writing : exists o i, writing (line_conf BWriter NlLf) (fst line_block) 8 (snd line_block) o i /\ n_data i = [] /\ o_pos o = 0 /\ o_uid o = (1, 10).
Proof.
  destruct line_block as [f w] eqn:E. cbn [fst snd].
  assert (X : match w_fds w (fd_of f) with Some o => o_uid o = (1, 10) /\ o_pos o = 0 /\ w_inodes w (o_uid o) = Some (mkIno KReg [] false) | None => False end
              /\ f_closed f = false /\ f_seekable f = true /\ f_writable f = true).
  { replace f with (fst line_block) by now rewrite E. replace w with (snd line_block) by now rewrite E. vm_compute. auto. }
  destruct X as (X & A1 & A2 & A3). destruct (w_fds w (fd_of f)) as [o|] eqn:Ef; [|contradiction]. destruct X as (U & Po & I0).
  exists o, (mkIno KReg [] false). split; [|auto]. constructor; auto; try reflexivity; try discriminate. constructor; auto. lia.
Qed.
Theorem C70_blocking_count_refuted : ~ blocking_tells.
Proof.
  intros H. destruct line_block_writing as (o & i & Wg & D & Po & U).
  destruct (t_write (line_conf BWriter NlLf) [97; 10] (text_fresh (fst line_block) 8 (snd line_block))) as [r t'] eqn:E.
  destruct (t_flush (line_conf BWriter NlLf) t') as [r2 t2] eqn:E2.
  assert (r = Err (EBlocking 0)) as -> by (change (fst (r, t') = Err (EBlocking 0)); rewrite <- E; vm_compute; reflexivity).
  assert (r2 = Ok tt /\ option_map n_data (w_inodes (b_w (t_b t2)) (1, 10)) = Some [97; 10]) as [-> X].
  { change (fst (r2, t2) = Ok tt /\ option_map n_data (w_inodes (b_w (t_b (snd (r2, t2)))) (1, 10)) = Some [97; 10]). rewrite <- E2.
    replace t' with (snd (@Err Z (EBlocking 0), t')) by reflexivity. rewrite <- E. vm_compute. auto. }
  destruct (H _ _ _ _ _ _ _ _ _ _ Wg D Po E E2) as (C & (j & Hj & <-) & Hl). rewrite U in Hj. rewrite Hj in X. cbn in X. injection X as X.
  rewrite X in Hl. discriminate.
Qed.

(** "é" then a line, in a buffer of 4 bytes, with line buffering; CR LF as line ending.  The line's end is in the file at once,
    what follows is after the flush. *)
Example C70_example :
  let c := line_conf BWriter NlCrLf in
  let '(outs, t1) := run_wops c [WoText [233]; WoText [97; 10]; WoText [98; 99]] (demo_text BWriter 16 [1] []) in
  let '(outs2, t2) := run_wops c [WoFlush; WoText [100; 56000]; WoText [101; 102]; WoFlush] t1 in
  outs = [WNum 1; WNum 2; WNum 2] /\ content (b_w (t_b t1)) (1, 10) = [195; 169; 97; 13; 10]
  /\ outs2 = [WDone; WErr EValue; WNum 2; WDone] /\ content (b_w (t_b t2)) (1, 10) = [195; 169; 97; 13; 10; 98; 99; 101; 102].
Proof. vm_compute. auto. Qed.

(** * C71: closing *)
(** However the calls went, close() closes the stream; if it raises nothing, everything is in the
    file; if it does raise, what was pending may be lost. *)
Theorem C71_close_writes c f size ops w o i outs t1 r t2 : writing c f size w o i ->
  run_wops c ops (text_fresh f size w) = (outs, t1) -> t_close c t1 = (r, t2) ->
  exists C p e lost,
    toruns (tc_codec c) (tc_newline c) (tc_linesep c) (tc_line_buffering c) (o_app o)
      (n_data i, o_pos o, enc_start (tc_codec c) o) ops outs (C, p, e)
    /\ pending_in (o_app o) (b_w (t_b t2)) (o_uid o) C lost
    /\ (r = Ok tt -> holds_file (b_w (t_b t2)) (o_uid o) C) /\ f_closed (b_raw (t_b t2)) = true.
Proof.
  intros Wg E Ec. destruct (writing_rep _ _ _ _ _ _ Wg) as [R En].
  destruct (toruns_ok c (wg_kind _ _ _ _ _ _ Wg) (wg_sep _ _ _ _ _ _ Wg) ops _ _ _ _ _ R outs t1 E) as (o1 & i1 & C & p & R1 & V1 & X & _).
  rewrite En in X. pose proof (lifts_close c t1) as Lc. rewrite Ec in Lc. unfold close_both in Lc.
  rewrite (lv_open _ _ _ _ (rp_live _ _ _ _ _ _ R1)) in Lc. unfold finally in Lc.
  destruct (b_flush_ok True (tc_kind c) (t_b t1) o1 i1 C p R1 ltac:(left; auto)) as (r2 & b2 & o2 & i2 & E2 & [R2 V2 _ _ _ C2]). rewrite E2 in Lc.
  destruct (b_close (tc_kind c) b2) as [r3 b3] eqn:E3.
  assert (b3 = t_b t2) as -> by (destruct r3; congruence). pose proof (C63_close_closes _ _ _ _ E3) as Hc.
  unfold b_close in E3. rewrite (lv_open _ _ _ _ (rp_live _ _ _ _ _ _ R2)) in E3. unfold finally in E3.
  destruct (b_flush_ok True (tc_kind c) b2 o2 i2 C p R2 ltac:(left; auto)) as (r4 & b4 & o4 & i4 & E4 & [R4 V4 _ _ _ C4]). rewrite E4 in E3.
  destruct (raw_close_b b4) as [r5 b5] eqn:E5. assert (b5 = t_b t2) as -> by (destruct r5; congruence).
  pose proof (raw_close_b_inodes _ _ _ E5) as K.
  assert (U : o_uid o4 = o_uid o /\ o_app o4 = o_app o).
  { rewrite (so_uid _ _ (ev_o _ _ _ _ V4)), (so_uid _ _ (ev_o _ _ _ _ V2)), (so_uid _ _ (ev_o _ _ _ _ V1)).
    rewrite (so_app _ _ (ev_o _ _ _ _ V4)), (so_app _ _ (ev_o _ _ _ _ V2)), (so_app _ _ (ev_o _ _ _ _ V1)). auto. }
  destruct U as [U A].
  assert (Hf : forall D, holds_file (b_w b4) (o_uid o) D -> holds_file (b_w (t_b t2)) (o_uid o) D).
  { intros D (j & Hj & Dj). exists j. rewrite (kp_inodes _ _ K). auto. }
  exists C, p, (enc_of c t1), (b_wbuf b4). split; [exact X|]. split; [|split; [|exact Hc]].
  - pose proof (rep_pending _ _ _ _ _ _ R4) as (c0 & q & q' & H0 & P0). rewrite U, A in *. exists c0, q, q'. auto.
  - intros ->. apply Hf. rewrite <- U.
    assert (W : b_wbuf b4 = []).
    { destruct C4 as [[-> W]|(_ & _ & x & -> & _)]; [exact W|]. destruct r5 as [[]|]; injection E3 as <-; discriminate Lc. }
    eapply rep_settled; eauto.
Qed.

(** In any state. *)
Theorem C71_close_closes c t r t' : t_close c t = (r, t') -> f_closed (b_raw (t_b t')) = true.
Proof.
  intros E. pose proof (lifts_close c t) as L. rewrite E in L. unfold close_both in L. destruct (f_closed (b_raw (t_b t))) eqn:Hc; [injection L as _ <-; exact Hc|].
  unfold finally in L. destruct (b_flush (tc_kind c) (t_b t)) as [r1 b1]. destruct (b_close (tc_kind c) b1) as [r2 b2] eqn:E2.
  assert (b2 = t_b t') as <- by (destruct r2; congruence). eapply C63_close_closes; eauto.
Qed.
Theorem C71_close_again c t : f_closed (b_raw (t_b t)) = true -> t_close c t = (Ok tt, t).
Proof. intros H. unfold t_close. now rewrite H. Qed.

(** Every other method of a closed text stream raises, and touches neither the world nor the
    buffer.  The exception is ValueError, unless the stream is not a reader, or not
    seekable, or in the course of an iteration, and says so. *)
Theorem C71_closed_refuses guess c m t : f_closed (b_raw (t_b t)) = true ->
  exists e t', tcall guess c m t = (Err e, t') /\ t_b t' = t_b t
    /\ (e = EValue \/ (e = EUnsupported /\ tc_kind c = BWriter /\ exists n, m = TcRead n)
        \/ (m = TcTell /\ ((e = EUnsupported /\ t_seekable t = false) \/ (e = EOS 0 /\ t_telling t = false)))).
Proof.
  intros Hc.
  assert (Bd : forall A X (x : T A) (g : A -> T X) e t', x t = (Err e, t') -> bind x g t = (Err e, t')) by (unfold bind; intros; now rewrite H).
  assert (Ck : t_check_closed t = (Err EValue, t)) by (unfold t_check_closed; now rewrite Hc).
  assert (Fl : exists t', t_flush c t = (Err EValue, t') /\ t_b t' = t_b t).
  { unfold t_flush, bind, on_b. rewrite (refuses_bflush _ Hc (tc_kind c)). eexists. split; reflexivity. }
  destruct Fl as (tf & Fl & Fb).
  assert (Sk : forall n wh, t_seek guess c n wh t = (Err EValue, t)) by (intros; apply Bd, Ck).
  destruct m; cbn [tcall]; unfold no_value.
  - unfold t_read, t_check_readable. destruct (tc_kind c) eqn:K; [exists EValue, t|exists EUnsupported, t|exists EValue, t];
      (split; [apply Bd, Bd; first [exact Ck|reflexivity]|]); split; auto. right; left. eauto.
  - exists EValue, t. split; [apply Bd, Bd, Ck|auto].
  - exists EValue, (set_telling t false). split; [|split; [reflexivity|auto]].
    unfold t_next, t_readline, bind, upd_t, t_check_closed. cbn [set_telling t_b]. now rewrite Hc.
  - exists EValue, t. split; [apply Bd, Bd, Ck|auto].
  - unfold t_tell. destruct (t_seekable t) eqn:S; [destruct (t_telling t) eqn:Tl|].
    + exists EValue, tf. split; [|auto]. apply Bd. unfold bind at 1. rewrite S, Tl. cbn [negb]. cbv iota. now apply Bd.
    + exists (EOS 0), t. split; [apply Bd, Bd; rewrite S, Tl; reflexivity|]. split; [reflexivity|]. right; right. auto.
    + exists EUnsupported, t. split; [apply Bd, Bd; rewrite S; reflexivity|]. split; [reflexivity|]. right; right. auto.
  - exists EValue, t. split; [apply Bd, Sk|auto].
  - exists EValue, tf. split; [apply Bd, Bd, Fl|auto].
  - exists EValue, tf. auto.
  - exists EValue, tf. split; [apply Bd, Bd, Fl|auto].
  - exists EValue, tf. split; [apply Bd, Fl|auto].
  - exists EValue, t. split; [apply Bd, Bd, Bd, Sk|auto].
  - exists EValue, t. split; [apply Bd, Bd, Sk|auto].
Qed.

(** If close() raises, its bytes are kept somewhere: no, they are lost, and a second close() says nothing. *)
Definition close_keeps : Prop := forall c f size w o i s t1 t2 e t3, writing c f size w o i -> n_data i = [] ->
  t_write c s (text_fresh f size w) = (Ok (len s), t1) -> t_close c t1 = (Err e, t2) -> t_close c t2 = (Ok tt, t3) ->
  exists C, holds_file (b_w (t_b t3)) (o_uid o) C /\ (s <> [] -> C <> []).
Definition full_disk : rawio * world := demo_open "f"%string false true false (demo [] [IoFull; IoErr ENOSPC; IoErr ENOSPC] [] []).
Lemma full_disk_writing : exists o i, writing (conf BWriter NlLf) (fst full_disk) 8 (snd full_disk) o i /\ n_data i = [] /\ o_uid o = (1, 10).
Proof.
  destruct full_disk as [f w] eqn:E. cbn [fst snd].
  assert (X : match w_fds w (fd_of f) with Some o => o_uid o = (1, 10) /\ o_pos o = 0 /\ w_inodes w (o_uid o) = Some (mkIno KReg [] false) | None => False end
              /\ f_closed f = false /\ f_seekable f = true /\ f_writable f = true).
  { replace f with (fst full_disk) by now rewrite E. replace w with (snd full_disk) by now rewrite E. vm_compute. auto. }
  destruct X as (X & A1 & A2 & A3). destruct (w_fds w (fd_of f)) as [o|] eqn:Ef; [|contradiction]. destruct X as (U & Po & I0).
  exists o, (mkIno KReg [] false). split; [|auto]. constructor; auto; try reflexivity; try discriminate. constructor; auto. lia.
Qed.
Theorem C71_failed_close_refuted : ~ close_keeps.
Proof.
  intros H. destruct full_disk_writing as (o & i & Wg & D & U).
  destruct (t_write (conf BWriter NlLf) [97; 98] (text_fresh (fst full_disk) 8 (snd full_disk))) as [r t1] eqn:E1.
  destruct (t_close (conf BWriter NlLf) t1) as [r2 t2] eqn:E2. destruct (t_close (conf BWriter NlLf) t2) as [r3 t3] eqn:E3.
  assert (r = Ok 2 /\ r2 = Err (EOS ENOSPC) /\ r3 = Ok tt /\ option_map n_data (w_inodes (b_w (t_b t3)) (1, 10)) = Some []) as (-> & -> & -> & X).
  { assert (r = fst (t_write (conf BWriter NlLf) [97; 98] (text_fresh (fst full_disk) 8 (snd full_disk)))) as -> by now rewrite E1.
    assert (r2 = fst (t_close (conf BWriter NlLf) t1)) as -> by now rewrite E2. assert (r3 = fst (t_close (conf BWriter NlLf) t2)) as -> by now rewrite E3.
    assert (t3 = snd (t_close (conf BWriter NlLf) t2)) as -> by now rewrite E3. assert (t2 = snd (t_close (conf BWriter NlLf) t1)) as -> by now rewrite E2.
    assert (t1 = snd (t_write (conf BWriter NlLf) [97; 98] (text_fresh (fst full_disk) 8 (snd full_disk)))) as -> by now rewrite E1.
    vm_compute. auto. }
  destruct (H (conf BWriter NlLf) _ _ _ _ _ [97; 98] _ _ _ _ Wg D E1 E2 E3) as (C & (j & Hj & <-) & Hl). rewrite U in Hj. rewrite Hj in X. cbn in X. injection X as X.
  apply Hl; [discriminate|exact X].
Qed.

Example C71_example :
  let c := line_conf BRandom NlLf in
  let '(_, t1) := run_wops c [WoText [97; 98]] (demo_text BRandom 16 [1; 2; 3] []) in
  let '(r, t2) := t_close c t1 in
  r = Ok tt /\ content (b_w (t_b t2)) (1, 10) = [97; 98; 3] /\ f_closed (b_raw (t_b t2)) = true /\ w_fds (b_w (t_b t2)) (fd_of (b_raw (t_b t1))) = None
  /\ fst (tcall exact_guess c (TcRead None) t2) = Err EValue /\ fst (tcall exact_guess c (TcWrite []) t2) = Err EValue
  /\ fst (tcall exact_guess c TcTell t2) = Err EValue /\ fst (t_close c t2) = Ok tt.
Proof. vm_compute. auto 10. Qed.

Print Assumptions C70_text_writer.
Print Assumptions C70_settled.
Print Assumptions C70_text_in_file.
Print Assumptions C70_new_file.
Print Assumptions C70_codecs.
Print Assumptions C70_blocking_count_refuted.
Print Assumptions C71_close_writes.
Print Assumptions C71_close_closes.
Print Assumptions C71_close_again.
Print Assumptions C71_closed_refuses.
Print Assumptions C71_failed_close_refuted.
