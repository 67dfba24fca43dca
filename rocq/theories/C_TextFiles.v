(** C44 (write_to_file / read_from_file with text), C51 (append_to_file with text). *)
From Coq Require Import ZArith Ascii String List Bool Lia.
From Verif Require Import M_Base M_Modes M_Registry M_Kernel M_World M_Raw M_Open M_Buffered M_Files M_Newline M_Text M_TextFiles
  S_Bytes S_Raw S_Locks S_LockFile S_Open S_Buffered S_Sync S_Files S_Newline S_Text S_Codecs S_TextFiles S_Demo
  P_Bytes P_Raw P_Close P_Frame P_LockFile P_Lock C_Lock P_Open P_Buffered P_BufOps P_BufRun P_LockEnv P_Files P_Newline P_Decode P_TextRead P_TextLine
  P_Codecs P_TextFiles C_Sync C_Files.
Import ListNotations.
Open Scope Z_scope.

Lemma with_text_cases {A} py_u a mode (body : tconf -> T A) w r w' : with_text py_u a mode body w = (r, w') ->
  (exists e, rsopen py_u (text_open_args a mode) w = (Err e, w') /\ r = Err e)
  \/ exists s w1, rsopen py_u (text_open_args a mode) w = (Ok s, w1)
       /\ match kind_of (st_layer s) with
          | None => r = Err EBadValue /\ w' = w1
          | Some k => exists t', finally (body (text_conf a s k)) (t_close (text_conf a s k)) (t_fresh (fresh (st_raw s) (st_bufsize s) w1)) = (r, t')
                        /\ w' = b_w (t_b t')
          end.
Proof.
  unfold with_text, bind. destruct (rsopen _ _ w) as [[s|e] w1]; [|intros [= <- <-]; left; eauto].
  intros H. right. exists s, w1. split; [reflexivity|]. destruct (kind_of (st_layer s)) as [k|]; [|injection H as <- <-; auto].
  cbv zeta in H. destruct (finally _ _ _) as [r1 t1] eqn:E. injection H as <- <-. eauto.
Qed.

(** What os.linesep may be: "\n", "\r\n" or "\r". *)
Definition usual_linesep (sep : list Z) : Prop := sep = [10] \/ sep = [13; 10] \/ sep = [13].
Lemma usual_not_nil sep : usual_linesep sep -> sep <> [].
Proof. intros [-> |[-> | ->]]; discriminate. Qed.

(** What the body does to the stream opened. *)
Lemma text_after_open h (sync : bool) s rk a mode ek p w st w' fd o i i1 i2 w0 w1 r t' k :
  usual_linesep (ta_linesep a) ->
  ready rk (text_open_args a mode) ek p w st w' fd o i i1 i2 w0 w1 -> ek_binary ek = false -> rk_read rk = false -> rk_write rk || rk_append rk = true -> at_end o i2 ->
  kind_of (st_layer st) = Some k ->
  finally (text_body h sync s (text_conf a st k)) (t_close (text_conf a st k)) (t_fresh (fresh (st_raw st) (st_bufsize st) w')) = (r, t') ->
  exists i' x y, w_names (b_w (t_b t')) p = Some (o_uid o) /\ w_inodes (b_w (t_b t')) (o_uid o) = Some i'
    /\ w_env (b_w (t_b t')) = w_env w' /\ n_kind i' = KReg /\ n_data i' = n_data i2 ++ x
    /\ match cd_encode (ta_codec a) (enc_start (ta_codec a) o) (as_written (ta_newline a) (ta_linesep a) s) with
       | Some (b, _) => b = x ++ y
       | None => x = [] /\ r <> Ok tt
       end
    /\ (r = Ok tt -> y = [] /\ (sync = true -> n_dirty i' = false)).
Proof.
  intros Hsep R Bi Rr Rw At Hk Hb. destruct (ready_fresh _ _ _ _ _ _ _ _ _ _ _ _ _ _ R) as (Rd & Wr & Fd). rewrite Rw in Wr.
  pose proof (rd_live _ _ _ _ _ _ _ _ _ _ _ _ _ _ R) as L.
  assert (Ly : k = BWriter /\ 0 <= st_bufsize st).
  { destruct (rd_layer _ _ _ _ _ _ _ _ _ _ _ _ _ _ R) as [(_ & _ & X)|(X & _ & Y)]; [congruence|].
    rewrite Rr, Rw in Y. cbn in Y. rewrite Y in Hk. injection Hk as <-. split; [reflexivity|lia]. }
  destruct Ly as [-> Hs].
  destruct (text_body_end h sync s (text_conf a st BWriter) _ _ _ _ _ _ _ L At Wr Hs eq_refl (fun _ => usual_not_nil _ Hsep) Hb) as (i' & x & y & Hk' & Hi & Hc & (N & Ne & _) & He & Hr).
  exists i', x, y. rewrite N. split; [eapply ready_name; eauto|]. split; [exact Hi|]. split; [exact Ne|]. auto.
Qed.

(** * C44 *)

(** write_to_file with text, once the file is open, locked and erased.  If the text cannot be encoded the file is left empty. *)
Theorem C44_write : forall py_u has_fdatasync a p s sync must_create must_not_create w r w',
  fa_name (ta_file a) = NPath p -> not_pipe w p -> usual_linesep (ta_linesep a) ->
  (must_create = true -> fa_locking (ta_file a) = true -> no_writer w) ->
  write_text py_u has_fdatasync a s sync must_create must_not_create w = (r, w') ->
  (exists e, r = Err e /\ rsopen py_u (text_open_args a (text_write_mode must_create must_not_create)) w = (Err e, w'))
  \/ (must_create = true -> w_names w p = None) /\ (must_not_create = true -> w_names w p <> None)
     /\ match cd_encode (ta_codec a) (cd_e0 (ta_codec a)) (as_written (ta_newline a) (ta_linesep a) s) with
        | None => r <> Ok tt /\ has_content w' p []
        | Some (b, _) => exists x y, b = x ++ y /\ has_content w' p x
            /\ (r = Ok tt -> y = [])
            /\ (r = Ok tt -> sync = true -> exists u, w_names w' p = Some u /\ durable w' u x)
        end.
Proof.
  intros py_u h a p s sync mc mn w r w' Hn Np Hsep Hmc H. unfold write_text in H.
  destruct (with_text_cases _ _ _ _ _ _ _ H) as [(e & X & ->)|(st & w1 & Ho & Hb)]; [left; eauto|right].
  pose proof (text_write_prelude py_u a p mc mn Hn) as Ep.
  set (rk := mkRaw _ _ _ _ _ _ _ _ _ _ _) in *. set (ek := mkExt _ _ _) in *.
  destruct (rsopen_ready py_u (text_open_args a (text_write_mode mc mn)) p w st w1 rk ek) as (fd & o & i & i1 & i2 & w0 & wl & R); auto.
  { repeat split; auto. }
  pose proof (rd_open _ _ _ _ _ _ _ _ _ _ _ _ _ _ R) as Op.
  destruct (kind_of (st_layer st)) as [k|] eqn:Hk.
  2:{ exfalso. destruct (rd_layer _ _ _ _ _ _ _ _ _ _ _ _ _ _ R) as [(_ & _ & X)|(_ & _ & Y)]; [discriminate|]. rewrite Y in Hk. discriminate. }
  destruct Hb as (t' & Hb & ->).
  assert (mc && mn = false) as Hmm.
  { pose proof (rd_checks _ _ _ _ _ _ _ _ _ _ _ _ _ _ R) as Hck. unfold rk in Hck. destruct mc, mn; auto. destruct p; discriminate Hck. }
  assert (D : n_data i2 = []).
  { rewrite (rd_data _ _ _ _ _ _ _ _ _ _ _ _ _ _ R). destruct mc; [|reflexivity]. cbn [ek ek_truncate negb].
    destruct (op_how _ _ _ _ _ _ _ Op) as [(_ & _ & X & _)|(A & _ & _ & Hi)].
    { exfalso. apply X. cbn. auto. }
    destruct (rd_others _ _ _ _ _ _ _ _ _ _ _ _ _ _ R) as [-> |(ev & dd & I1 & I2 & E)]; [now rewrite Hi|].
    destruct (fa_locking (ta_file a)) eqn:El.
    - rewrite (Hmc eq_refl eq_refl _ I1) in I2. discriminate.
    - rewrite (rd_nolock _ _ _ _ _ _ _ _ _ _ _ _ _ _ R El). now rewrite Hi. }
  assert (Po : o_pos o = 0) by (rewrite (op_pos _ _ _ _ _ _ _ Op); reflexivity).
  assert (At : at_end o i2).
  { unfold at_end, write_pos. rewrite (op_app _ _ _ _ _ _ _ Op), Po, D. reflexivity. }
  destruct (text_after_open _ _ _ _ _ _ _ _ _ _ _ _ _ _ _ _ _ _ _ _ _ Hsep R eq_refl eq_refl eq_refl At Hk Hb) as (i' & x & y & N & I & Ev & K & C & E & F).
  unfold enc_start in E. rewrite Po in E. change (0 =? 0) with true in E. cbv iota in E. rewrite D in C. cbn [app] in C.
  split; [|split].
  - intros ->. destruct (op_how _ _ _ _ _ _ _ Op) as [(_ & _ & X & _)|(A & _)]; [|exact A]. exfalso. apply X. cbn. auto.
  - intros ->. destruct (op_how _ _ _ _ _ _ _ Op) as [(A & _)|(_ & A & _)]; [congruence|discriminate].
  - destruct (cd_encode _ _ _) as [[b e]|].
    + exists x, y. split; [exact E|]. split; [exists (o_uid o), i'; auto|]. split; [intros X; now apply F|].
      intros X Y. exists (o_uid o). split; [exact N|]. rewrite <- C. apply durable_clean; [exact I|]. now apply F.
    + destruct E as [-> E]. split; [exact E|]. exists (o_uid o), i'. auto.
Qed.

Lemma text_read_moment : forall py_u a p w d w',
  fa_name (ta_file a) = NPath p -> not_pipe w p -> no_block w -> plain_codec (ta_codec a) ->
  read_text py_u a w = (Ok d, w') ->
  exists past c, w_env w = past ++ w_env w' /\ (fa_locking (ta_file a) = false -> past = [])
    /\ has_content w p c /\ text_of (ta_codec a) (ta_newline a) (content_after past c) d /\ has_content w' p (content_after past c)
    /\ (fa_locking (ta_file a) = true -> forall u, w_names w p = Some u -> ~ kept_out false (w_pid w) u (locks_after past (w_kern w))).
Proof.
  intros py_u a p w d w' Hn Np Nb Pc H. unfold read_text in H.
  destruct (with_text_cases _ _ _ _ _ _ _ H) as [(e & _ & X)|(st & w1 & Ho & Hb)]; [discriminate|].
  pose proof (text_read_prelude py_u a p Hn) as Ep.
  set (rk := mkRaw _ _ _ _ _ _ _ _ _ _ _) in *. set (ek := mkExt _ _ _) in *.
  destruct (rsopen_ready py_u (text_open_args a text_read_mode) p w st w1 rk ek) as (fd & o & i & i1 & i2 & w0 & wl & R); auto.
  { repeat split; auto. }
  pose proof (rd_open _ _ _ _ _ _ _ _ _ _ _ _ _ _ R) as Op.
  pose proof (rd_dirty _ _ _ _ _ _ _ _ _ _ _ _ _ _ R eq_refl) as ->.
  pose proof (rd_live _ _ _ _ _ _ _ _ _ _ _ _ _ _ R) as L.
  destruct (ready_fresh _ _ _ _ _ _ _ _ _ _ _ _ _ _ R) as (Rd & _ & _).
  assert (Ly : st_layer st = LReader).
  { destruct (rd_layer _ _ _ _ _ _ _ _ _ _ _ _ _ _ R) as [(_ & _ & X)|(_ & _ & ->)]; [discriminate|auto]. }
  rewrite Ly in Hb. cbn [kind_of] in Hb. destruct Hb as (t' & Hb & ->). set (c := text_conf a st BReader) in *.
  assert (Nb1 : no_block w1) by (eapply no_block_incl; [eapply ready_io; eauto|exact Nb]).
  unfold finally in Hb. destruct (text_whole c _) as [r1 t1] eqn:E1.
  pose proof (lifts_close c t1) as Lc. destruct (t_close c t1) as [r2 t2]. destruct r2 as [u2|]; [|discriminate]. injection Hb as -> ->.
  apply (text_whole_good _ _ _ _ o i1) in E1; auto.
  2:{ rewrite (op_pos _ _ _ _ _ _ _ Op). reflexivity. }
  destruct E1 as (Tx & w2 & o2 & B2 & L2 & F2 & I2). rewrite B2 in Lc. change (tc_kind c) with BReader in Lc.
  assert (I3 : w_inodes (b_w (t_b t')) = w_inodes w2 /\ w_names (b_w (t_b t')) = w_names w2 /\ w_env (b_w (t_b t')) = w_env w2).
  { assert (Fl : b_flush BReader (fresh (st_raw st) (st_bufsize st) w2) = (Ok tt, fresh (st_raw st) (st_bufsize st) w2)).
    { unfold b_flush, bind, b_check_closed, on_raw, raw_flush. cbn [fresh b_raw b_w].
      rewrite (lv_open _ _ _ _ L2). cbv beta iota zeta. cbn [fresh b_raw b_w]. rewrite (check_closed_live _ _ _ _ L2). reflexivity. }
    unfold close_both in Lc. cbn [fresh b_raw] in Lc. rewrite (lv_open _ _ _ _ L2) in Lc.
    change (mkB (st_raw st) (st_bufsize st) [] 0 [] w2) with (fresh (st_raw st) (st_bufsize st) w2) in Lc.
    unfold finally at 1 in Lc. rewrite Fl in Lc. unfold b_close in Lc. cbn [fresh b_raw] in Lc. rewrite (lv_open _ _ _ _ L2) in Lc.
    change (mkB (st_raw st) (st_bufsize st) [] 0 [] w2) with (fresh (st_raw st) (st_bufsize st) w2) in Lc.
    unfold finally in Lc. rewrite Fl in Lc.
    destruct (raw_close_b (fresh (st_raw st) (st_bufsize st) w2)) as [r3 b3] eqn:E3. apply raw_close_b_inodes in E3.
    destruct r3; injection Lc as _ <-; (split; [|split]); apply E3. }
  destruct (ready_content _ _ _ _ _ _ _ _ _ _ _ _ _ _ R) as (past & P1 & P2 & P3 & P4 & P5).
  destruct (op_how _ _ _ _ _ _ _ Op) as [(A & _)|(_ & A & _)]; [|discriminate].
  destruct I3 as (J1 & J2 & J3). exists past, (n_data i). rewrite J3, (fr_env _ _ _ _ F2). rewrite <- P4.
  split; [exact P1|]. split; [exact P2|]. split; [destruct P3 as [P3|[P3 _]]; [exact P3|congruence]|].
  split; [exact Tx|]. split.
  - exists (o_uid o), i1. rewrite J1, J2, I2, (fr_names _ _ _ _ F2).
    split; [eapply ready_name; eauto|]. split; [apply L|]. split; [apply L|reflexivity].
  - intros X u Y. rewrite A in Y. injection Y as <-. rewrite (proj1 (proj2 (ready_fresh _ _ _ _ _ _ _ _ _ _ _ _ _ _ R))) in P5. exact (P5 X).
Qed.
Theorem C44_read : forall py_u a p w d w',
  fa_name (ta_file a) = NPath p -> not_pipe w p -> no_block w -> plain_codec (ta_codec a) ->
  read_text py_u a w = (Ok d, w') ->
  exists past c, w_env w = past ++ w_env w' /\ (fa_locking (ta_file a) = false -> past = [])
    /\ has_content w p c /\ text_of (ta_codec a) (ta_newline a) (content_after past c) d /\ has_content w' p (content_after past c).
Proof.
  intros py_u a p w d w' Hn Np Nb Pc H.
  destruct (text_read_moment _ _ _ _ _ _ Hn Np Nb Pc H) as (past & c & A1 & A2 & A3 & A4 & A5 & _). exists past, c. auto.
Qed.

(** ** Newlines *)
Lemma univ_no_cr : forall s, ~ In CR (univ s).
Proof.
  intros s. destruct (pieces_exist s) as [ps H]. rewrite (univ_pieces _ _ H). clear -H.
  induction H as [|p s ps O N _ IH]; [now cbn|]. cbn [flat_map]. rewrite in_app_iff. intros [X|X]; [|now apply IH].
  destruct p; cbn in X; try (destruct X as [X|[]]; discriminate X). destruct X as [-> |[]]. cbn in O. tauto.
Qed.
Lemma univ_written sep s : usual_linesep sep -> ~ In 13 s -> univ (as_written NlNone sep s) = s.
Proof.
  intros Hsep. unfold as_written. cbn [line_ending]. induction s as [|x s IH]; intros N; [reflexivity|]. cbn [flat_map].
  assert (IH' := IH (fun X => N (or_intror X))). destruct (Z.eqb_spec x 10) as [->|Nx].
  - destruct Hsep as [-> |[-> | ->]]; cbn [app].
    + rewrite univ_other by discriminate. now rewrite IH'.
    + match goal with |- univ (13 :: 10 :: ?t) = _ => change (univ (CR :: LF :: t) = 10 :: s) end. rewrite univ_crlf, IH'. reflexivity.
    + match goal with |- univ (13 :: ?t) = _ => change (univ (CR :: t) = 10 :: s) end. rewrite univ_cr; [rewrite IH'; reflexivity|]. intros u Hu.
      assert (X : In 10 (flat_map (fun x => if x =? 10 then [13] else [x]) s)) by (rewrite Hu; now left).
      apply in_flat_map in X as (y & _ & Hy). destruct (Z.eqb_spec y 10); cbn in Hy; [destruct Hy as [Hy|[]]; discriminate|destruct Hy as [Hy|[]]; contradiction].
  - cbn [app]. rewrite univ_other; [now rewrite IH'|]. intros X. apply N. now left.
Qed.
Lemma newlines_survive nl sep s d : usual_linesep sep -> newlines_read nl (as_written nl sep s) d -> d = s <-> survives nl s.
Proof.
  intros Hsep H. assert (Id : (forall x, In x s -> x = 10 -> line_ending nl sep = [10]) -> as_written nl sep s = s).
  { intros X. apply flat_same. intros x Hx. destruct (Z.eqb_spec x 10); [now rewrite (X _ Hx e), e|reflexivity]. }
  destruct nl; cbn [newlines_read survives] in *.
  - destruct H as (ps & Hps & ->). rewrite <- (univ_pieces _ _ Hps). split; [|now apply univ_written].
    intros E. rewrite <- E. apply univ_no_cr.
  - rewrite H, Id by auto. tauto.
  - rewrite H, Id by auto. tauto.
  - split; [|intros N; rewrite H; apply Id; intros x Hx ->; contradiction]. intros E. rewrite <- E, H. unfold as_written. cbn [line_ending].
    intros X. apply in_flat_map in X as (y & _ & Hy). destruct (Z.eqb_spec y 10); cbn in Hy; [destruct Hy as [Hy|[]]; discriminate|destruct Hy as [Hy|[]]; contradiction].
  - split; [|intros N; rewrite H; apply Id; intros x Hx ->; contradiction]. intros E X. subst d. unfold as_written in E. cbn [line_ending] in E.
    assert (G : forall l, (length l <= length (flat_map (fun x => if (x =? 10)%Z then [13; 10]%Z else [x]) l))%nat).
    { induction l as [|x l IH]; [reflexivity|]. cbn. destruct (x =? 10)%Z; cbn; lia. }
    apply in_split in X as (l1 & l2 & ->). apply (f_equal (@length Z)) in E. rewrite flat_map_app in E. cbn [flat_map] in E. change (10 =? 10) with true in E. cbv iota in E.
    rewrite !app_length in E. cbn [length] in E. pose proof (G l1). pose proof (G l2). lia.
Qed.

(** Text written with write_to_file and read with read_from_file, same encoding and newline argument, any buffering: the text read is the text
    written exactly when the text survives the newline argument. *)
Theorem C44_round_trip : forall py_u has_fdatasync a p s sync must_create must_not_create w w1 py_u' a' d w2,
  fa_name (ta_file a) = NPath p -> fa_name (ta_file a') = NPath p -> not_pipe w p -> usual_linesep (ta_linesep a) ->
  plain_codec (ta_codec a) -> ta_codec a' = ta_codec a -> ta_newline a' = ta_newline a ->
  (must_create = true -> fa_locking (ta_file a) = true -> no_writer w) ->
  write_text py_u has_fdatasync a s sync must_create must_not_create w = (Ok tt, w1) ->
  no_block w1 -> (fa_locking (ta_file a') = false \/ no_writer w1) ->
  read_text py_u' a' w1 = (Ok d, w2) -> d = s <-> survives (ta_newline a) s.
Proof.
  intros py_u h a p s sync mc mn w w1 py_u' a' d w2 Hn Hn' Np Hsep Pc Ec En Hmc Hw Nb Nw Hr.
  destruct (C44_write _ _ _ _ _ _ _ _ _ _ _ Hn Np Hsep Hmc Hw) as [(e & X & _)|(_ & _ & E)]; [discriminate|].
  destruct (cd_encode _ _ _) as [[b e]|] eqn:Eb; [|now destruct E].
  destruct E as (x & y & -> & (u & i & A1 & A2 & A3 & A4) & B & _). rewrite (B eq_refl), app_nil_r in Eb.
  assert (Np1 : not_pipe w1 p).
  { intros u' i' E1 E2. rewrite A1 in E1. injection E1 as <-. rewrite A2 in E2. injection E2 as <-. congruence. }
  rewrite <- Ec in Pc. destruct (C44_read _ _ _ _ _ _ Hn' Np1 Nb Pc Hr) as (past & c & C1 & C2 & (u' & i' & E1 & E2 & _ & E4) & Tx & _).
  rewrite (past_none _ _ _ _ c C1 C2 Nw) in Tx.
  assert (c = x) as -> by (rewrite A1 in E1; injection E1 as <-; rewrite A2 in E2; injection E2 as <-; congruence).
  rewrite Ec, En in Tx. rewrite Ec in Pc. destruct (pc_inverse _ Pc _ _ _ Eb) as (st & Ed). destruct Tx as (raw & st' & Ed' & Tx).
  rewrite Ed in Ed'. injection Ed' as <- <-. eapply newlines_survive; eauto.
Qed.

(** ** Codecs *)
Lemma good_plain cd : good_codec cd -> plain_codec cd.
Proof.
  intros G. constructor.
  - intros x out [b f] H. rewrite (gc_end _ G _ _ _ _ _ H). eexists. apply (gc_nil_final _ G).
  - intros s b e H. eapply (gc_inverse _ G); eauto.
Qed.
Lemma utf8_decode_eq l fin : utf8_decode l fin = cd_decode utf8 ([], 0) l fin.
Proof. reflexivity. Qed.
Lemma utf8_sig_plain : plain_codec utf8_sig.
Proof.
  constructor.
  - intros x out s H. cbn [utf8_sig cd_decode cd_d0 fst snd app] in H. change (1 =? 0) with false in H. cbv iota in H.
    assert (F : forall l, utf8_decode l true = Some (out, s) -> exists s', cd_decode utf8_sig s [] true = Some ([], s')).
    { intros l X. rewrite utf8_decode_eq in X. destruct s as [b f]. pose proof (gc_end _ utf8_good _ _ _ _ _ X) as ->.
      assert (f = 0) as ->. { cbn in X. destruct (decode_all utf8_next (length l) l true) as [[o b]|]; [injection X; auto|discriminate]. }
      eexists. reflexivity. }
    destruct (length x <? 3)%nat eqn:El; [destruct (starts_with x bom) eqn:Es|destruct (starts_with bom x)]; eauto.
    injection H as <- <-. cbn [utf8_sig cd_decode fst snd]. rewrite app_nil_r, El, Es. cbn. eauto.
  - intros s b e H. cbn [utf8_sig cd_encode cd_e0] in H. destruct (encode_all utf8_enc1 s) as [b0|] eqn:E; [|discriminate]. cbv beta iota in H.
    injection H as <- _. cbn [utf8_sig cd_decode cd_d0 fst snd app].
    change (Z.eqb 1 0) with false. cbv iota. change (Nat.ltb (length (239 :: 187 :: 191 :: b0)) 3) with false. cbv iota.
    change (starts_with bom (239 :: 187 :: 191 :: b0)) with true. cbv iota. cbn [skipn]. rewrite utf8_decode_eq.
    apply (gc_inverse _ utf8_good s b0 0). cbn. now rewrite E.
Qed.
Section Append.
  Variable enc1 : Z -> option (list Z).
  Hypothesis enc1_some : forall c b, enc1 c = Some b -> b <> [].
  Lemma encode_all_nil s : encode_all enc1 s = Some [] -> s = [].
  Proof.
    destruct s as [|c s]; [reflexivity|]. cbn. destruct (enc1 c) as [b|] eqn:E; [|discriminate]. destruct (encode_all enc1 s); [|discriminate].
    intros H. injection H as H. apply app_eq_nil in H as [-> _]. now apply enc1_some in E.
  Qed.
  Lemma encode_all_app s1 b1 s2 b2 : encode_all enc1 s1 = Some b1 -> encode_all enc1 s2 = Some b2 -> encode_all enc1 (s1 ++ s2) = Some (b1 ++ b2).
  Proof.
    revert b1. induction s1 as [|c s1 IH]; intros b1 H1 H2; cbn in *; [injection H1 as <-; exact H2|].
    destruct (enc1 c) as [b|]; [|discriminate]. destruct (encode_all enc1 s1) as [bs|]; [|discriminate]. injection H1 as <-.
    now rewrite (IH _ eq_refl H2), app_assoc.
  Qed.
  Lemma simple_appendable next : appendable (simple_codec next enc1).
  Proof.
    constructor; cbn [simple_codec cd_encode cd_e0].
    - intros s e H. apply encode_all_nil. destruct (encode_all enc1 s); [injection H as -> _; reflexivity|discriminate].
    - intros s1 b1 e1 s2 b2 e2 H1 _ H2. destruct (encode_all enc1 s1) eqn:E1; [|discriminate]. destruct (encode_all enc1 s2) eqn:E2; [|discriminate].
      injection H1 as <- <-. injection H2 as <- <-. rewrite (encode_all_app _ _ _ _ E1 E2). eauto.
  Qed.
End Append.
Lemma latin1_some c b : latin1_enc1 c = Some b -> b <> [].
Proof. unfold latin1_enc1. destruct (S_Codecs.within 0 255 c); [|discriminate]. now intros [= <-]. Qed.
Lemma utf8_some c b : utf8_enc1 c = Some b -> b <> [].
Proof. intros H ->. pose proof (utf8_next_char _ _ _ (utf8_next_enc _ _ [] H)). cbn in *. lia. Qed.
Lemma utf8_sig_appendable : appendable utf8_sig.
Proof.
  constructor; cbn [utf8_sig cd_encode cd_e0]; change (1 =? 0) with false; change (0 =? 0) with true; cbv iota.
  - intros s e H. destruct (encode_all utf8_enc1 s); discriminate.
  - intros s1 b1 e1 s2 b2 e2 H1 _ H2. destruct (encode_all utf8_enc1 s1) eqn:E1; [|discriminate]. destruct (encode_all utf8_enc1 s2) eqn:E2; [|discriminate].
    injection H1 as <- <-. injection H2 as <- <-. rewrite (encode_all_app _ _ _ _ _ E1 E2). eauto.
Qed.
(** The codecs for which C44 and C51 hold are not few. *)
Theorem C44_codecs : plain_codec latin1 /\ plain_codec utf8 /\ plain_codec utf8_sig.
Proof. split; [exact (good_plain _ latin1_good)|]. split; [exact (good_plain _ utf8_good)|exact utf8_sig_plain]. Qed.
Theorem C51_codecs : appendable latin1 /\ appendable utf8 /\ appendable utf8_sig.
Proof. split; [exact (simple_appendable _ latin1_some _)|]. split; [exact (simple_appendable _ utf8_some _)|exact utf8_sig_appendable]. Qed.

(** * C51 *)

(** append_to_file with text, whatever happens: the previous content is followed by a beginning of the encoded text, by all of it when the
    call returns.  The encoder knows of the content found at the opening, before the wait for the lock. *)
Theorem C51_append : forall py_u has_fdatasync a p s sync must_not_create w r w',
  fa_name (ta_file a) = NPath p -> not_pipe w p -> usual_linesep (ta_linesep a) ->
  append_text py_u has_fdatasync a s sync must_not_create w = (r, w') ->
  (exists e, r = Err e /\ rsopen py_u (text_open_args a (text_append_mode must_not_create)) w = (Err e, w'))
  \/ exists past c, w_env w = past ++ w_env w' /\ (fa_locking (ta_file a) = false -> past = []) /\ had_content w p c
     /\ (must_not_create = true -> w_names w p <> None)
     /\ match cd_encode (ta_codec a) (if (length c =? 0)%nat then cd_e0 (ta_codec a) else 0) (as_written (ta_newline a) (ta_linesep a) s) with
        | None => r <> Ok tt /\ has_content w' p (content_after past c)
        | Some (b, _) => exists x y, b = x ++ y /\ has_content w' p (content_after past c ++ x)
            /\ (r = Ok tt -> y = [])
            /\ (r = Ok tt -> sync = true -> exists u, w_names w' p = Some u /\ durable w' u (content_after past c ++ x))
        end.
Proof.
  intros py_u h a p s sync mn w r w' Hn Np Hsep H. unfold append_text in H.
  destruct (with_text_cases _ _ _ _ _ _ _ H) as [(e & X & ->)|(st & w1 & Ho & Hb)]; [left; eauto|right].
  pose proof (text_append_prelude py_u a p mn Hn) as Ep.
  set (rk := mkRaw _ _ _ _ _ _ _ _ _ _ _) in *. set (ek := mkExt _ _ _) in *.
  destruct (rsopen_ready py_u (text_open_args a (text_append_mode mn)) p w st w1 rk ek) as (fd & o & i & i1 & i2 & w0 & wl & R); auto.
  { repeat split; auto. }
  pose proof (rd_open _ _ _ _ _ _ _ _ _ _ _ _ _ _ R) as Op.
  destruct (kind_of (st_layer st)) as [k|] eqn:Hk.
  2:{ exfalso. destruct (rd_layer _ _ _ _ _ _ _ _ _ _ _ _ _ _ R) as [(_ & _ & X)|(_ & _ & Y)]; [discriminate|]. rewrite Y in Hk. discriminate. }
  destruct Hb as (t' & Hb & ->).
  assert (At : at_end o i2).
  { unfold at_end, write_pos. rewrite (op_app _ _ _ _ _ _ _ Op). reflexivity. }
  pose proof (rd_dirty _ _ _ _ _ _ _ _ _ _ _ _ _ _ R eq_refl) as ->.
  destruct (text_after_open _ _ _ _ _ _ _ _ _ _ _ _ _ _ _ _ _ _ _ _ _ Hsep R eq_refl eq_refl eq_refl At Hk Hb) as (i' & x & y & N & I & Ev & K & C & E & F).
  destruct (ready_content _ _ _ _ _ _ _ _ _ _ _ _ _ _ R) as (past & P1 & P2 & P3 & P4 & _). rewrite P4 in C.
  assert (Es : enc_start (ta_codec a) o = if (length (n_data i) =? 0)%nat then cd_e0 (ta_codec a) else 0).
  { unfold enc_start. rewrite (op_pos _ _ _ _ _ _ _ Op).
    assert (n_kind i = KReg) as ->.
    { pose proof (lv_kind _ _ _ _ (rd_live1 _ _ _ _ _ _ _ _ _ _ _ _ _ _ R)) as K1. pose proof (rd_others _ _ _ _ _ _ _ _ _ _ _ _ _ _ R) as K2.
      apply others_only_kind in K2. congruence. }
    cbn [rk rk_append]. destruct (n_data i) as [|z l]; reflexivity. }
  rewrite Es in E. clear Es. exists past, (n_data i). rewrite Ev. split; [exact P1|]. split; [exact P2|]. split; [exact P3|].
  split; [intros ->; destruct (op_how _ _ _ _ _ _ _ Op) as [(A & _)|(_ & A & _)]; [congruence|discriminate]|].
  destruct (cd_encode _ _ _) as [[b e]|].
  - exists x, y. split; [exact E|]. split; [exists (o_uid o), i'; auto|]. split; [intros X; now apply F|].
    intros X Y. exists (o_uid o). split; [exact N|]. rewrite <- C. apply durable_clean; [exact I|]. now apply F.
  - destruct E as [-> E]. rewrite app_nil_r in C. split; [exact E|]. exists (o_uid o), i'. auto.
Qed.

(** A call that returns, nothing else writing meanwhile: the file held the text s0, it now holds s0 followed by the text given. *)
Theorem C51_append_text_partial : forall py_u has_fdatasync a p s sync must_not_create w w' s0 c,
  fa_name (ta_file a) = NPath p -> not_pipe w p -> usual_linesep (ta_linesep a) -> appendable (ta_codec a) ->
  fa_locking (ta_file a) = false \/ no_writer w ->
  had_content w p c -> bytes_of (ta_codec a) s0 c ->
  append_text py_u has_fdatasync a s sync must_not_create w = (Ok tt, w') ->
  exists c', has_content w' p c' /\ bytes_of (ta_codec a) (s0 ++ as_written (ta_newline a) (ta_linesep a) s) c'.
Proof.
  intros py_u h a p s sync mn w w' s0 c Hn Np Hsep Ap Hl Hc Hb H.
  destruct (C51_append _ _ _ _ _ _ _ _ _ _ Hn Np Hsep H) as [(e & X & _)|(past & c1 & A1 & A2 & A3 & _ & E)]; [discriminate|].
  rewrite (had_content_fun _ _ _ _ A3 Hc) in *. rewrite (past_none _ _ _ _ c A1 A2 Hl) in E.
  destruct (cd_encode (ta_codec a) _ _) as [[b e]|] eqn:Eb; [|now destruct E]. destruct E as (x & y & -> & D & Y & _).
  rewrite (Y eq_refl), app_nil_r in Eb. exists (c ++ x). split; [exact D|]. destruct c as [|z c].
  - cbn [length Nat.eqb] in Eb. assert (s0 = []) as ->. { destruct Hb as [[-> _]|(e' & Hb)]; [reflexivity|]. eapply (ap_nil _ Ap); eauto. }
    right. exists e. exact Eb.
  - cbn [length Nat.eqb] in Eb. destruct Hb as [[_ X]|(e' & Hb)]; [discriminate|].
    right. apply (ap_app _ Ap _ _ _ _ _ _ Hb ltac:(discriminate) Eb).
Qed.

(** Calls made one after the other, by one process or by several, with the same encoding. *)
Record text_append_call : Type := mkTCall {
  tk_py_u : bool; tk_fdatasync : bool; tk_args : textargs; tk_text : list Z; tk_sync : bool; tk_must_exist : bool;
  tk_before : world; tk_after : world }.
Fixpoint texts_in_turn (cd : codec) (p : list ascii) (c : list Z) (calls : list text_append_call) (c' : list Z) : Prop :=
  match calls with
  | [] => c' = c
  | k :: calls =>
      fa_name (ta_file (tk_args k)) = NPath p /\ ta_codec (tk_args k) = cd /\ usual_linesep (ta_linesep (tk_args k))
      /\ had_content (tk_before k) p c /\ no_writer (tk_before k)
      /\ append_text (tk_py_u k) (tk_fdatasync k) (tk_args k) (tk_text k) (tk_sync k) (tk_must_exist k) (tk_before k) = (Ok tt, tk_after k)
      /\ exists c1, has_content (tk_after k) p c1 /\ texts_in_turn cd p c1 calls c'
  end.
Definition written_by (k : text_append_call) : list Z := as_written (ta_newline (tk_args k)) (ta_linesep (tk_args k)) (tk_text k).
Theorem C51_appends_concatenate_partial : forall cd p calls c c' s0, appendable cd -> bytes_of cd s0 c ->
  texts_in_turn cd p c calls c' -> bytes_of cd (s0 ++ flat_map written_by calls) c'.
Proof.
  induction calls as [|k calls IH]; intros c c' s0 Ap Hb H; cbn in *; [rewrite app_nil_r; now subst|].
  destruct H as (H1 & H2 & H3 & H4 & H5 & H6 & c1 & H7 & H8).
  assert (Np : not_pipe (tk_before k) p).
  { intros u i E1 E2. destruct H4 as [(u' & i' & B1 & B2 & B3 & _)|[B1 _]]; [|congruence].
    rewrite B1 in E1. injection E1 as <-. rewrite B2 in E2. injection E2 as <-. congruence. }
  subst cd. destruct (C51_append_text_partial _ _ _ _ _ _ _ _ _ _ _ H1 Np H3 Ap (or_intror H5) H4 Hb H6) as (c2 & D1 & D2).
  rewrite (had_content_fun _ _ _ _ (or_introl H7) (or_introl D1)) in H8. specialize (IH _ _ _ Ap D2 H8). now rewrite <- app_assoc in IH.
Qed.

(** * What does not hold *)
Definition targs (cd : codec) (nl : nlarg) (buffering : option Z) : textargs :=
  mkTA (mkFA (NPath (name "f")) buffering true false true true PNone) cd nl [10] None.

(** Without a newline argument (the default), "\r" and "\r\n" do not come back. *)
Theorem C44_default_newline_refuted : exists a s w w1 d w2,
  plain_codec (ta_codec a) /\ ta_newline a = NlNone /\ usual_linesep (ta_linesep a) /\ no_writer w
  /\ write_text false true a s true false false w = (Ok tt, w1) /\ no_block w1
  /\ read_text false a w1 = (Ok d, w2) /\ d <> s.
Proof.
  exists (targs utf8 NlNone None), [97; 13; 10; 98], (demo [1] [] [] []).
  destruct (write_text false true (targs utf8 NlNone None) [97; 13; 10; 98] true false false (demo [1] [] [] [])) as [r w1] eqn:E1.
  destruct (read_text false (targs utf8 NlNone None) w1) as [r2 w2] eqn:E2.
  exists w1, [97; 10; 98], w2. vm_compute in E1. injection E1 as <- <-. vm_compute in E2. injection E2 as <- <-.
  split; [exact (good_plain _ utf8_good)|]. split; [reflexivity|]. split; [left; reflexivity|]. split; [intros ev []|]. split; [reflexivity|].
  split; [split; intros []|]. split; [reflexivity|discriminate].
Qed.
(** With newline="\r" (and "\r\n"), "\n" does not come back. *)
Theorem C44_cr_newline_refuted : exists a s w w1 d w2,
  plain_codec (ta_codec a) /\ ta_newline a = NlCr /\ usual_linesep (ta_linesep a) /\ no_writer w
  /\ write_text false true a s true false false w = (Ok tt, w1) /\ no_block w1
  /\ read_text false a w1 = (Ok d, w2) /\ d <> s.
Proof.
  exists (targs utf8 NlCr None), [97; 10; 98], (demo [1] [] [] []).
  destruct (write_text false true (targs utf8 NlCr None) [97; 10; 98] true false false (demo [1] [] [] [])) as [r w1] eqn:E1.
  destruct (read_text false (targs utf8 NlCr None) w1) as [r2 w2] eqn:E2.
  exists w1, [97; 13; 98], w2. vm_compute in E1. injection E1 as <- <-. vm_compute in E2. injection E2 as <- <-.
  split; [exact (good_plain _ utf8_good)|]. split; [reflexivity|]. split; [left; reflexivity|]. split; [intros ev []|]. split; [reflexivity|].
  split; [split; intros []|]. split; [reflexivity|discriminate].
Qed.
(** A text that cannot be encoded: the call fails and the file has lost its content. *)
Theorem C44_unencodable_keeps_file_refuted : exists a s w e w',
  write_text false true a s false false false w = (Err e, w') /\ e = EValue
  /\ has_content w (name "f") [1; 2; 3] /\ has_content w' (name "f") [].
Proof.
  exists (targs latin1 NlLf None), [97; 8364], (demo [1; 2; 3] [] [] []).
  destruct (write_text false true (targs latin1 NlLf None) [97; 8364] false false false (demo [1; 2; 3] [] [] [])) as [r w1] eqn:E1.
  exists EValue, w1. vm_compute in E1. injection E1 as <- <-.
  split; [reflexivity|]. split; [reflexivity|]. split; [exists (1, 10), (mkIno KReg [1;2;3] false); repeat split; reflexivity|].
  exists (1, 10). eexists. split; [reflexivity|]. split; [vm_compute; reflexivity|]. split; reflexivity.
Qed.
(** Appending to an empty file while another process appends, with a codec that starts files with a mark: the presence of the mark was decided
    before the lock was obtained; a mark is left in the middle, and read as a character. *)
Definition mark_race : world :=
  demo [] [] [mkEv 1 (Some []) None (Some (bom ++ [97]))] [mkSeg 200 (1, 10) false 0 None].
Theorem C51_two_appends_refuted : exists a s w w' d w'' c s0,
  appendable (ta_codec a) /\ plain_codec (ta_codec a) /\ fa_locking (ta_file a) = true
  /\ append_text false true a s false false w = (Ok tt, w')
  /\ c = content_after (w_env w) [] /\ bytes_of (ta_codec a) s0 c
  /\ read_text false a w' = (Ok d, w'') /\ d <> s0 ++ s.
Proof.
  exists (targs utf8_sig NlLf None), [98], mark_race.
  destruct (append_text false true (targs utf8_sig NlLf None) [98] false false mark_race) as [r w1] eqn:E1.
  destruct (read_text false (targs utf8_sig NlLf None) w1) as [r2 w2] eqn:E2.
  exists w1, [97; 65279; 98], w2, (bom ++ [97]), [97]. vm_compute in E1. injection E1 as <- <-. vm_compute in E2. injection E2 as <- <-.
  split; [exact utf8_sig_appendable|]. split; [exact utf8_sig_plain|]. split; [reflexivity|]. split; [reflexivity|]. split; [reflexivity|].
  split; [right; exists 0; reflexivity|]. split; [reflexivity|discriminate].
Qed.

(** * Non-vacuity *)
Example C44_example :
  let w := demo [1;2;3;4] [IoFull; IoFull; IoFull; IoShort 2; IoShort 1; IoFull] [] [] in
  let a := targs utf8 NlNone None in
  let x := write_text false true a [104; 233; 10; 128512; 10] true false false w in
  outcome_of x (1, 10) = (None, [104; 195; 169; 10; 240; 159; 152; 128; 10])
  /\ fst (read_text false a (snd x)) = Ok [104; 233; 10; 128512; 10]
  /\ fst (read_text false (targs latin1 NlNone (Some 1)) (snd x)) = Ok [104; 195; 169; 10; 240; 159; 152; 128; 10]
  /\ fst (write_text false true (targs utf8 NlNone (Some 0)) [104] true false false w) = Err EBadValue
  /\ outcome_of (write_text false true (targs utf8 NlCrLf (Some 1)) [104; 10; 105] true false false w) (1, 10) = (None, [104; 13; 10; 105])
  /\ fst (read_text false (targs utf8 NlNone None) (demo [255] [] [] [])) = Err EValue.
Proof. vm_compute. repeat split. Qed.
Example C51_example :
  let a := targs utf8_sig NlLf None in
  let x := append_text false true a [97; 10] true false (demo [] [] [] []) in
  let y := append_text false true a [98; 10] true false (snd x) in
  outcome_of x (1, 10) = (None, [239; 187; 191; 97; 10])
  /\ outcome_of y (1, 10) = (None, [239; 187; 191; 97; 10; 98; 10])
  /\ fst (read_text false a (snd y)) = Ok [97; 10; 98; 10].
Proof. vm_compute. repeat split. Qed.

Print Assumptions C44_write.
Print Assumptions C44_read.
Print Assumptions C44_round_trip.
Print Assumptions C44_codecs.
Print Assumptions C44_default_newline_refuted.
Print Assumptions C44_cr_newline_refuted.
Print Assumptions C44_unencodable_keeps_file_refuted.
Print Assumptions C51_append.
Print Assumptions C51_append_text_partial.
Print Assumptions C51_appends_concatenate_partial.
Print Assumptions C51_codecs.
Print Assumptions C51_two_appends_refuted.
