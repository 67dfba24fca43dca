(** C48, C49: what writing to and truncating a text stream do when no decoder state is packed in the position. *)
From Coq Require Import ZArith Ascii String List Bool Lia.
From Verif Require Import M_Base M_Modes M_Registry M_Kernel M_World M_Raw M_Buffered M_Newline M_Text S_Bytes S_Raw S_Demo S_Buffered S_Newline S_Text S_Codecs S_TextFiles
  S_Confined P_Bytes P_Raw P_Buffered P_BufOps P_Newline P_Decode P_TextBase P_TextRead P_TextLine P_TextTell P_Codecs P_TextFiles C_Buffered C_Text C_Confined.
Import ListNotations.
Open Scope Z_scope.

(** * The stream stays on its file *)
Definition on_file (f : rawio) (u : uid) (t : tstate) : Prop := b_raw (t_b t) = f /\ option_map o_uid (w_fds (b_w (t_b t)) (fd_of f)) = Some u.
Lemma on_file_method guess c m f u t : on_file f u t -> on_file f u (run_tmethod guess c m t).
Proof.
  intros [E H]. destruct (C65_text_confined guess c m t) as [E1 Cf]. split; [congruence|]. rewrite E in Cf. rewrite (cf_file _ _ _ Cf). exact H.
Qed.
Lemma on_file_top guess c op f u t out t' : on_file f u t -> run_top guess c op t = (out, t') -> on_file f u t'.
Proof.
  intros H E. destruct op as [n|n| | |n|]; cbn [run_top] in E.
  - pose proof (on_file_method guess c (TmRead n) _ _ _ H) as H1. cbn [run_tmethod] in H1. destruct (t_read c n t) as [[x|e] t1]; now injection E as <- <-.
  - pose proof (on_file_method guess c (TmReadline n) _ _ _ H) as H1. cbn [run_tmethod] in H1. destruct (t_readline c n t) as [[x|e] t1]; now injection E as <- <-.
  - pose proof (on_file_method guess c TmNext _ _ _ H) as H1. cbn [run_tmethod] in H1. destruct (t_next c t) as [[[x|]|e] t1]; now injection E as <- <-.
  - pose proof (on_file_method guess c TmTell _ _ _ H) as H1. cbn [run_tmethod] in H1. destruct (t_tell guess c t) as [[x|e] t1]; now injection E as <- <-.
  - pose proof (on_file_method guess c (TmSeek n 0) _ _ _ H) as H1. cbn [run_tmethod] in H1. destruct (t_seek guess c n 0 t) as [[x|e] t1]; now injection E as <- <-.
  - pose proof (on_file_method guess c (TmSeek 0 2) _ _ _ H) as H1. cbn [run_tmethod] in H1. destruct (t_seek guess c 0 2 t) as [[x|e] t1]; now injection E as <- <-.
Qed.
Lemma on_file_tops guess c f u : forall ops t outs t', on_file f u t -> run_tops guess c ops t = (outs, t') -> on_file f u t'.
Proof.
  induction ops as [|op ops IH]; intros t outs t' H E; cbn [run_tops] in E; [now injection E as <- <-|].
  destruct (run_top guess c op t) as [out t1] eqn:E1. destruct (run_tops guess c ops t1) as [outs' t2] eqn:E2. injection E as <- <-.
  eapply IH; [|exact E2]. eapply on_file_top; eauto.
Qed.
Lemma on_file_fresh c f size w o i txt : text_setting c f size w o i txt -> on_file f (o_uid o) (text_fresh f size w).
Proof. intros [St _ _ _ _ _]. destruct St as [L _ _ _ _ _]. split; [reflexivity|]. cbn [text_fresh t_fresh t_b fresh b_w]. now rewrite (lv_fd _ _ _ _ L). Qed.
Lemma file_at f u t k C p : on_file f u t -> bst k (t_b t) C p -> exists i', w_inodes (b_w (t_b t)) u = Some i' /\ n_data i' = C.
Proof.
  intros [E H] (o & i & R & _ & _ & W & _). destruct (rep_flat _ _ _ _ _ _ R W) as [D _]. pose proof (rp_live _ _ _ _ _ _ R) as L.
  rewrite <- E, (lv_fd _ _ _ _ L) in H. injection H as <-. exists i. split; [apply (lv_ino _ _ _ _ L)|exact D].
Qed.

(** * write() then flush() *)
Lemma write_flush c C t p s d e f u (guess : nat -> nat -> nat -> Z) : bst (tc_kind c) (t_b t) C p -> tc_kind c = BRandom -> on_file f u t ->
  (tc_newline c = NlNone -> tc_linesep c <> []) ->
  cd_encode (tc_codec c) (match t_enc t with Some x => x | None => cd_e0 (tc_codec c) end) (as_written (tc_newline c) (tc_linesep c) s) = Some (d, e) ->
  exists t1 t2 i', t_write c s t = (Ok (len s), t1) /\ t_flush c t1 = (Ok tt, t2)
    /\ w_inodes (b_w (t_b t2)) u = Some i' /\ stored_at C p d (n_data i').
Proof.
  intros B K Of Sep En. rewrite <- to_encode_eq in En by exact Sep.
  pose proof (t_write_lift c s t (bst_open _ _ _ _ B)) as L. rewrite En in L. destruct L as (line & L).
  destruct (t_write c s t) as [r1 t1] eqn:E1.
  pose proof (on_file_method guess c (TmWrite s) _ _ _ Of) as O1. cbn [run_tmethod] in O1. rewrite E1 in O1. cbn [snd] in O1.
  pose proof (on_file_method guess c TmFlush _ _ _ O1) as O2. cbn [run_tmethod] in O2.
  pose proof (bst_pos _ _ _ _ B) as Pn. destruct B as (o & i & R & T & N & W & Kr & A).
  rewrite K in *. destruct (b_write_ok False BRandom (t_b t) o i C p d R T eq_refl) as (r & b1 & o1 & i1 & c1 & p1 & Ew & R1 & V1 & _ & Wn & _). rewrite A in Wn.
  assert (X : r = Ok (len d) /\ c1 = write_at C (Z.to_nat p) d) by (destruct Wn; try contradiction; auto). destruct X as [-> ->]. clear Wn.
  pose proof (tameb_evolves _ _ _ _ _ V1 T) as T1.
  assert (X : exists b2 o2 i2, r1 = Ok (len s) /\ t_b t1 = b2 /\ rep BRandom b2 o2 i2 (write_at C (Z.to_nat p) d) p1 /\ tameb False b2 o2).
  { unfold after_write in L. rewrite K in L. unfold bind at 1 in L. rewrite Ew in L. unfold bind in L. destruct line.
    - destruct (b_flush_ok False BRandom b1 o1 i1 _ p1 R1 T1) as (r2 & b2 & o2 & i2 & E2 & [R2 V2 _ _ _ [(-> & _)|([] & _)]]).
      rewrite E2 in L. injection L as <- <-. exists b2, o2, i2. repeat (split; [first [reflexivity|assumption]|]). eapply tameb_evolves; eauto.
    - unfold ret in L. injection L as <- <-. exists b1, o1, i1. auto. }
  destruct X as (b2 & o2 & i2 & -> & Eb & R2 & T2).
  destruct (b_flush_ok False BRandom b2 o2 i2 _ p1 R2 T2) as (r3 & b3 & o3 & i3 & E3 & [R3 V3 _ _ _ [(-> & W3)|([] & _)]]).
  assert (Ef : t_flush c t1 = (Ok tt, set_telling (set_b t1 b3) (t_seekable (set_b t1 b3)))).
  { unfold t_flush, bind, on_b. rewrite K, Eb, E3. reflexivity. }
  rewrite Ef in O2. cbn [snd] in O2. exists t1, (set_telling (set_b t1 b3) (t_seekable (set_b t1 b3))).
  destruct (rep_flat _ _ _ _ _ _ R3 W3) as [D3 _]. pose proof (rp_live _ _ _ _ _ _ R3) as L3.
  destruct O2 as [Or Of2]. cbn [set_telling set_b t_b] in Or, Of2. rewrite <- Or, (lv_fd _ _ _ _ L3) in Of2. injection Of2 as <-.
  exists i3. split; [reflexivity|]. split; [exact Ef|]. cbn [set_telling set_b t_b]. split; [apply (lv_ino _ _ _ _ L3)|].
  rewrite D3. pose proof (write_at_stored C (Z.to_nat p) d) as S. rewrite Z2Nat.id in S by exact Pn. exact S.
Qed.

(** * seek() to a byte position *)
Lemma unpack_plain n : 0 <= n < 2 ^ 64 -> unpack_cookie n = mkCk n 0 0 false 0.
Proof.
  intros H. transitivity (unpack_cookie (pack_cookie (mkCk n 0 0 false 0))); [now rewrite pack_pos|]. apply unpack_pack.
  split; [exact H|]. split; [exact field_0|]. split; exact field_0.
Qed.
Lemma seek_plain guess c C t p r1 tel q n : trep c C t p r1 tel q -> 0 <= n < 2 ^ 64 ->
  exists t', t_seek guess c n 0 t = (Ok n, t') /\ bst (tc_kind c) (t_b t') C n /\ t_enc t' = Some (if n =? 0 then cd_e0 (tc_codec c) else 0).
Proof.
  intros R Hn. unfold t_seek. unfold bind at 1, t_check_closed at 1. rewrite (bst_open _ _ _ _ (tr_b _ _ _ _ _ _ _ R)).
  unfold bind at 1, t_seekable at 1. rewrite (bst_seekable _ _ _ _ (tr_b _ _ _ _ _ _ _ R)). cbn [negb Z.eqb].
  unfold t_seek_to. unfold bind at 1. destruct (Z.ltb_spec n 0); [lia|]. unfold ret at 1.
  destruct (flush_text _ _ _ _ _ _ _ R) as (b1 & E1 & B1). unfold bind at 1. rewrite E1. rewrite (unpack_plain n Hn). cbv zeta. cbn [ck_pos ck_flags ck_skip ck_feed].
  destruct (bst_seek _ _ _ _ n B1) as (b2 & E2 & B2); [lia|]. unfold bind at 1, on_b at 1. tcbn. rewrite E2. tcbn.
  unfold bind at 1, upd_t at 1. tcbn. unfold bind at 1, upd_t at 1. tcbn. change (0 =? 0) with true. cbn [negb orb].
  unfold bind at 1, ret at 1. unfold bind, reset_encoder, upd_t, ret.
  eexists. split; [reflexivity|]. tcbn. split; [|reflexivity].
  destruct (t_dec t) as [d|]; [|exact B2]. destruct (n =? 0); exact B2.
Qed.
Lemma seek_end_plain guess c C t p r1 tel q : trep c C t p r1 tel q ->
  exists t', t_seek guess c 0 2 t = (Ok (len C), t') /\ bst (tc_kind c) (t_b t') C (len C)
    /\ t_enc t' = Some (if len C =? 0 then cd_e0 (tc_codec c) else 0).
Proof.
  intros R. unfold t_seek. unfold bind at 1, t_check_closed at 1. rewrite (bst_open _ _ _ _ (tr_b _ _ _ _ _ _ _ R)).
  unfold bind at 1, t_seekable at 1. rewrite (bst_seekable _ _ _ _ (tr_b _ _ _ _ _ _ _ R)). change (2 =? 1) with false. change (2 =? 2) with true. change (0 =? 0) with true. cbn [negb].
  destruct (flush_text _ _ _ _ _ _ _ R) as (b1 & E1 & B1). unfold bind at 1. rewrite E1.
  destruct (bst_seek_end _ _ _ _ B1) as (b2 & E2 & B2). unfold bind at 1, on_b at 1. tcbn. rewrite E2. tcbn.
  unfold bind at 1, upd_t at 1. tcbn. unfold bind at 1, upd_t at 1. tcbn. unfold bind, reset_encoder, upd_t, ret.
  eexists. split; [reflexivity|]. tcbn. split; [|reflexivity]. destruct (t_dec t); exact B2.
Qed.

(** A stream used in the way of C47: reads, tells and seeks to positions it was given. *)
Record used_stream (guess : nat -> nat -> nat -> Z) (c : tconf) (f : rawio) (size : Z) (w : world) (o : ofd) (i : inode) (txt : list Z)
  (ops : list top) (outs : list tout) (t : tstate) : Prop := mkUsed {
  us_setting : text_setting c f size w o i txt;
  us_kind : tc_kind c = BRandom;
  us_sep : tc_newline c = NlNone -> tc_linesep c <> [];
  us_guess : sane guess;
  us_run : run_tops guess c ops (text_fresh f size w) = (outs, t);
  us_known : seeks_known [o_pos o] (combine ops outs) }.
Lemma used_shows guess c f size w o i txt ops outs t : used_stream guess c f size w o i txt ops outs t ->
  exists v, taruns (tc_newline c) (mkTV txt [(o_pos o, txt)] true false) ops outs v /\ shows c (n_data i) t v /\ on_file f (o_uid o) t.
Proof.
  intros [S K _ Gs E Hk]. destruct (text_trep _ _ _ _ _ _ _ S) as (R & L & Tn). pose proof (on_file_fresh _ _ _ _ _ _ _ S) as Of. destruct S as [St Kn G Sm Ps Tx].
  assert (Sh : shows c (n_data i) (text_fresh f size w) (mkTV txt [(o_pos o, txt)] true false)).
  { exists (o_pos o), txt. split; [exact R|]. split; [exact L|]. cbn [tv_known]. intros n r [H|[]]. injection H as <- <-. exact Tn. }
  destruct (run_refines guess c (n_data i) G Sm Gs ops _ _ outs t Sh Hk E) as (v & A & S2). exists v. split; [exact A|]. split; [exact S2|].
  eapply on_file_tops; eauto.
Qed.

(** C48: after seek() to a byte position [n], the bytes written go there. *)
Theorem C48_seek_write_partial : forall guess c f size w o i txt ops outs t n s d e,
  used_stream guess c f size w o i txt ops outs t -> 0 <= n < 2 ^ 64 ->
  cd_encode (tc_codec c) (if n =? 0 then cd_e0 (tc_codec c) else 0) (as_written (tc_newline c) (tc_linesep c) s) = Some (d, e) ->
  exists t' i', (t_seek guess c n 0 ;; k <- t_write c s ;; t_flush c ;; ret k) t = (Ok (len s), t')
    /\ w_inodes (b_w (t_b t')) (o_uid o) = Some i' /\ stored_at (n_data i) n d (n_data i').
Proof.
  intros guess c f size w o i txt ops outs t n s d e U Hn En. destruct (used_shows _ _ _ _ _ _ _ _ _ _ _ U) as (v & _ & (p & r1 & R & _) & Of).
  destruct U as [S K Sep _ _ _]. destruct (seek_plain guess c _ _ _ _ _ _ n R Hn) as (t1 & E1 & B1 & X1).
  pose proof (on_file_method guess c (TmSeek n 0) _ _ _ Of) as O1. cbn [run_tmethod] in O1. rewrite E1 in O1. cbn [snd] in O1.
  destruct (write_flush c _ t1 n s d e f (o_uid o) guess B1 K O1 Sep) as (t2 & t3 & i' & E2 & E3 & I3 & D3); [now rewrite X1|].
  exists t3, i'. split; [|auto]. unfold bind at 1. rewrite E1. unfold bind at 1. rewrite E2. unfold bind at 1. rewrite E3. reflexivity.
Qed.
(** ... and after seek(0, 2) at the end. *)
Theorem C48_append_partial : forall guess c f size w o i txt ops outs t s d e,
  used_stream guess c f size w o i txt ops outs t ->
  cd_encode (tc_codec c) (if len (n_data i) =? 0 then cd_e0 (tc_codec c) else 0) (as_written (tc_newline c) (tc_linesep c) s) = Some (d, e) ->
  exists t' i', (t_seek guess c 0 2 ;; k <- t_write c s ;; t_flush c ;; ret k) t = (Ok (len s), t')
    /\ w_inodes (b_w (t_b t')) (o_uid o) = Some i' /\ stored_at (n_data i) (len (n_data i)) d (n_data i').
Proof.
  intros guess c f size w o i txt ops outs t s d e U En. destruct (used_shows _ _ _ _ _ _ _ _ _ _ _ U) as (v & _ & (p & r1 & R & _) & Of).
  destruct U as [S K Sep _ _ _]. destruct (seek_end_plain guess c _ _ _ _ _ _ R) as (t1 & E1 & B1 & X1).
  pose proof (on_file_method guess c (TmSeek 0 2) _ _ _ Of) as O1. cbn [run_tmethod] in O1. rewrite E1 in O1. cbn [snd] in O1.
  destruct (write_flush c _ t1 _ s d e f (o_uid o) guess B1 K O1 Sep) as (t2 & t3 & i' & E2 & E3 & I3 & D3); [now rewrite X1|].
  exists t3, i'. split; [|auto]. unfold bind at 1. rewrite E1. unfold bind at 1. rewrite E2. unfold bind at 1. rewrite E3. reflexivity.
Qed.
(** ... and on a stream just made, at its position. *)
Theorem C48_first_write_partial : forall c f size w o i txt s d e, text_setting c f size w o i txt -> tc_kind c = BRandom ->
  (tc_newline c = NlNone -> tc_linesep c <> []) ->
  cd_encode (tc_codec c) (if o_pos o =? 0 then cd_e0 (tc_codec c) else 0) (as_written (tc_newline c) (tc_linesep c) s) = Some (d, e) ->
  exists t' i', (k <- t_write c s ;; t_flush c ;; ret k) (text_fresh f size w) = (Ok (len s), t')
    /\ w_inodes (b_w (t_b t')) (o_uid o) = Some i' /\ stored_at (n_data i) (o_pos o) d (n_data i').
Proof.
  intros c f size w o i txt s d e S K Sep En. destruct (text_trep _ _ _ _ _ _ _ S) as (R & _ & _). pose proof (on_file_fresh _ _ _ _ _ _ _ S) as Of.
  destruct (write_flush c _ _ _ s d e f (o_uid o) exact_guess (tr_b _ _ _ _ _ _ _ R) K Of Sep) as (t2 & t3 & i' & E2 & E3 & I3 & D3).
  { destruct S as [[L _ _ _ [Wf _] _] _ _ _ _ _]. cbn [text_fresh t_fresh t_enc b_raw fresh b_w]. rewrite (lv_seek _ _ _ _ L), Wf by congruence.
    rewrite (lv_fd _ _ _ _ L). cbn [andb]. destruct (o_pos o =? 0); exact En. }
  exists t3, i'. split; [|auto]. unfold bind at 1. rewrite E2. unfold bind at 1. rewrite E3. reflexivity.
Qed.

(** * truncate() without size *)
Lemma fut_text c b txt : good_codec (tc_codec c) -> fut c (sput c 0) b = Some txt -> text_of (tc_codec c) (tc_newline c) b txt.
Proof.
  intros G. unfold fut, dstep. rewrite (sput_0 c). destruct (cd_decode (tc_codec c) ([], 0) b true) as [[raw [b' f']]|] eqn:D; [|discriminate].
  unfold text_of. rewrite (gc_d0 _ G), D. unfold nlc, heldb. rewrite andb_false_r. cbn [app]. intros H. exists raw, (b', f'). split; [reflexivity|].
  unfold newlines_read, readuniversal, readtranslate, emit in *. destruct (tc_newline c); try congruence.
  destruct (pieces_exist raw) as [ps Hp]. exists ps. split; [exact Hp|]. rewrite <- (univ_pieces _ _ Hp). congruence.
Qed.
Lemma told_plain c C n rest : good_codec (tc_codec c) -> told c C n rest -> n < 2 ^ 64 ->
  0 <= n /\ text_of (tc_codec c) (tc_newline c) (skipn (Z.to_nat n) C) rest.
Proof.
  intros G (k & En & Fk & Pk & Fl & Tk) Hn. pose proof (pack_nonneg k Fk) as Nn.
  assert (Ek : k = mkCk n 0 0 false 0) by (rewrite <- (unpack_pack k Fk), <- En; apply unpack_plain; lia).
  split; [lia|]. rewrite Ek in Tk. cbn [ck_pos ck_flags ck_skip] in Tk. destruct Tk as [[_ F]|[X _]]; [|lia]. now apply fut_text.
Qed.
Lemma b_flush_idle k b C p : bst k b C p -> b_flush k b = (Ok tt, b).
Proof.
  intros B. pose proof (bst_open _ _ _ _ B) as Op. destruct B as (o & i & R & _ & _ & W & _).
  assert (Ck : b_check_closed b = (Ok tt, b)) by (unfold b_check_closed; now rewrite Op).
  destruct k; unfold b_flush, flush_unlocked, bind; rewrite Ck; [|rewrite W; cbn [length flush_loop]; now rewrite W..].
  unfold on_raw, raw_flush, check_closed. rewrite Op. unfold ret. now rewrite set_world_same.
Qed.
Lemma t_flush_idle c C t p r1 q : trep c C t p r1 true q -> t_flush c t = (Ok tt, t).
Proof.
  intros R. unfold t_flush, bind, on_b. rewrite (b_flush_idle _ _ _ _ (tr_b _ _ _ _ _ _ _ R)). unfold upd_t, t_seekable. cbn [set_b t_b].
  rewrite (bst_seekable _ _ _ _ (tr_b _ _ _ _ _ _ _ R)). pose proof (tr_tel _ _ _ _ _ _ _ R) as T. destruct t. cbn in T |- *. now rewrite T.
Qed.
(** truncate() of a stream that has nothing to write, which may hold read-ahead bytes. *)
Lemma truncate_random b C p n f u : bst BRandom b C p -> 0 <= n -> b_raw b = f -> option_map o_uid (w_fds (b_w b) (fd_of f)) = Some u ->
  exists b' i', b_truncate BRandom (Some n) b = (Ok n, b') /\ w_inodes (b_w b') u = Some i' /\ resized C n (n_data i').
Proof.
  intros B Hn Ef Ou. pose proof (b_flush_idle _ _ _ _ B) as Fl. pose proof B as (o & i & R & T & N & W & _). destruct (rep_flat _ _ _ _ _ _ R W) as [D _].
  pose proof (rp_live _ _ _ _ _ _ R) as L. pose proof (rp_wr _ _ _ _ _ _ R eq_refl) as Wf.
  unfold b_truncate, bind at 1, ret at 1. unfold writer_truncate. unfold bind at 1. cbn [b_flush] in Fl. rewrite Fl. unfold bind at 1, ret at 1. unfold on_raw.
  rewrite (raw_truncate_eq _ _ _ _ (Some n) L Wf). destruct (Z.ltb_spec n 0); [lia|].
  destruct (truncate_body_live _ _ _ _ n L Hn) as (r & w3 & -> & F3 & [(-> & i3 & L3 & D3 & _)|(Flt & _ & _)]).
  - eexists _, i3. split; [reflexivity|]. cbn [set_world b_w]. subst f. rewrite (lv_fd _ _ _ _ L) in Ou. injection Ou as <-.
    split; [apply (lv_ino _ _ _ _ L3)|]. rewrite D3, D. now apply set_size_resized.
  - exfalso. destruct T as [[]|(T1 & _ & T3)]. destruct Flt as [X|(x & X)]; [rewrite T3 in X; auto; discriminate|].
    apply (T1 x). destruct (w_io (b_w b)); cbn in *; [discriminate|now left].
Qed.

(** C49: when tell() gives a byte position [n], truncate() gives it too and cuts the file there; what is cut off are the
    bytes of the text that was left to read. *)
Theorem C49_truncate_partial : forall guess c f size w o i txt ops outs t n t1,
  used_stream guess c f size w o i txt ops outs t -> t_tell guess c t = (Ok n, t1) -> n < 2 ^ 64 ->
  exists v t' i', taruns (tc_newline c) (mkTV txt [(o_pos o, txt)] true false) ops outs v
    /\ t_truncate guess c None t = (Ok n, t') /\ w_inodes (b_w (t_b t')) (o_uid o) = Some i' /\ resized (n_data i) n (n_data i')
    /\ text_of (tc_codec c) (tc_newline c) (skipn (Z.to_nat n) (n_data i)) (tv_rest v).
Proof.
  intros guess c f size w o i txt ops outs t n t1 U Et Hn. destruct (used_shows _ _ _ _ _ _ _ _ _ _ _ U) as (v & A & (p & r1 & R & L & _) & Of).
  destruct U as [S K Sep Gs _ _]. destruct S as [St Kn G Sm Ps Tx].
  assert (Te : tv_telling v = true).
  { destruct (tv_telling v) eqn:E; [reflexivity|]. rewrite (t_tell_off c _ guess _ _ _ _ R) in Et. discriminate. }
  rewrite Te in R. pose proof (on_file_method guess c TmTell _ _ _ Of) as O1. cbn [run_tmethod] in O1. rewrite Et in O1. cbn [snd] in O1.
  destruct (t_tell_ok c G _ Sm guess Gs _ _ _ _ R) as (r & t2 & E2 & R2 & L2 & [(m & -> & Tm)|(_ & ->)]); rewrite Et in E2; [|discriminate].
  injection E2 as <- <-. rewrite L in Tm. destruct (told_plain _ _ _ _ G Tm Hn) as [Nn Tn]. destruct O1 as [Or Ou].
  pose proof (tr_b _ _ _ _ _ _ _ R2) as B2. rewrite K in B2.
  destruct (truncate_random _ _ _ n f (o_uid o) B2 Nn Or Ou) as (b' & i' & E3 & I3 & D3).
  exists v, (set_b t1 b'), i'. split; [exact A|]. split; [|split; [exact I3|split; [exact D3|exact Tn]]].
  rewrite (truncate_none guess c t t n t1 (t_flush_idle _ _ _ _ _ _ R) Et). unfold on_b. rewrite K, E3. reflexivity.
Qed.

(** The program of C48_write_after_read_refuted, with a seek() to the position that tell() shows before the write(). *)
Example C48_example : let t' := snd ((t_read (conf BRandom NlNone) (Some 1) ;; n <- t_tell exact_guess (conf BRandom NlNone) ;;
    t_seek exact_guess (conf BRandom NlNone) n 0 ;; t_write (conf BRandom NlNone) [120] ;; t_flush (conf BRandom NlNone)) (demo_text BRandom 4096 [97; 98; 99; 100] [])) in
  content (b_w (t_b t')) (1, 10) = [97; 120; 99; 100].
Proof. vm_compute. reflexivity. Qed.
Example C49_example : let r := (t_read (conf BRandom NlNone) (Some 2) ;; t_truncate exact_guess (conf BRandom NlNone) None) (demo_text BRandom 4096 ([97] ++ smile ++ [99; 100]) []) in
  fst r = Ok 5 /\ content (b_w (t_b (snd r))) (1, 10) = [97] ++ smile.
Proof. vm_compute. auto. Qed.

Print Assumptions C48_seek_write_partial.
Print Assumptions C48_append_partial.
Print Assumptions C48_first_write_partial.
Print Assumptions C49_truncate_partial.
