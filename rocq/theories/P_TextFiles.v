(** Lemmas about the text streams used to read and write whole files. *)
From Coq Require Import ZArith Ascii String List Bool Lia.
From Verif Require Import M_Base M_Modes M_Registry M_Kernel M_World M_Raw M_Open M_Buffered M_Files M_Newline M_Text M_TextFiles
  S_Bytes S_Raw S_Locks S_LockFile S_Open S_Buffered S_Files S_Newline S_Text S_Codecs S_TextFiles
  P_Bytes P_Raw P_Close P_Frame P_LockFile P_Lock C_Lock P_Open P_Buffered P_BufOps P_BufRun P_Files P_Newline P_Decode P_TextRead P_Codecs.
Import ListNotations.
Open Scope Z_scope.

(** * Text operations that act on the buffer alone *)
Definition lifts {A} (m : T A) (n : B A) : Prop := forall t, let '(r, t') := m t in n (t_b t) = (r, t_b t').
Lemma lifts_ret {A} (a : A) : lifts (ret a) (ret a).
Proof. intros t. reflexivity. Qed.
Lemma lifts_on_b {A} (n : B A) : lifts (on_b n) n.
Proof. intros t. unfold on_b. destruct (n (t_b t)) as [r b]. reflexivity. Qed.
Lemma lifts_bind {A C} (m : T A) (n : B A) (f : A -> T C) (g : A -> B C) : lifts m n -> (forall a, lifts (f a) (g a)) ->
  lifts (bind m f) (bind n g).
Proof.
  intros H K t. unfold bind. specialize (H t). destruct (m t) as [[a|e] t1]; rewrite H; [apply K|reflexivity].
Qed.
Lemma lifts_upd {A} (u : tstate -> tstate) (m : T A) (n : B A) : (forall t, t_b (u t) = t_b t) -> lifts m n -> lifts (upd_t u ;; m) n.
Proof. intros H K t. unfold bind, upd_t. specialize (K (u t)). destruct (m (u t)). now rewrite <- H. Qed.
Lemma lifts_flush c : lifts (t_flush c) (b_flush (tc_kind c)).
Proof.
  intros t. unfold t_flush, bind, on_b. destruct (b_flush (tc_kind c) (t_b t)) as [[[]|e] b]; reflexivity.
Qed.
Lemma lifts_finally {A} (m : T A) (n : B A) (f : T unit) (g : B unit) : lifts m n -> lifts f g -> lifts (finally m f) (finally n g).
Proof.
  intros H K t. unfold finally. specialize (H t). destruct (m t) as [r t1]. rewrite H. specialize (K t1).
  destruct (f t1) as [[[]|e] t2]; rewrite K; reflexivity.
Qed.
Definition close_both (k : bkind) : B unit := fun b => if f_closed (b_raw b) then (Ok tt, b) else finally (b_flush k) (b_close k) b.
Lemma lifts_close c : lifts (t_close c) (close_both (tc_kind c)).
Proof.
  intros t. unfold t_close, close_both. destruct (f_closed (b_raw (t_b t))); [reflexivity|].
  exact (lifts_finally _ _ _ _ (lifts_flush c) (lifts_on_b (b_close (tc_kind c))) t).
Qed.

(** What the first write leaves to do once the text is encoded. *)
Definition after_write (c : tconf) (line : bool) (b : list Z) (n : Z) : B Z :=
  b_write (tc_kind c) b ;; (if line then b_flush (tc_kind c) else ret tt) ;; ret n.

Lemma has_char_iff x s : has_char x s = true <-> In x s.
Proof.
  unfold has_char. rewrite existsb_exists. split; [intros (y & H & E); apply Z.eqb_eq in E; now subst|intros H; exists x; split; [exact H|apply Z.eqb_refl]].
Qed.
Lemma replace_flat c u s : replace_char c u s = flat_map (fun x => if x =? c then u else [x]) s.
Proof. reflexivity. Qed.
Lemma flat_same f (s : list Z) : (forall x, In x s -> f x = [x]) -> flat_map f s = s.
Proof. induction s as [|x s IH]; intros H; [reflexivity|]. cbn. rewrite H by now left. cbn. f_equal. apply IH. intros y Hy. apply H. now right. Qed.
Lemma seq_eqb_eq a b : seq_eqb a b = true -> a = b.
Proof.
  unfold seq_eqb. intros H. apply andb_true_iff in H as [L F]. apply Nat.eqb_eq in L. revert b L F.
  induction a as [|x a IH]; intros [|y b] L F; try discriminate; [reflexivity|]. cbn in *. apply andb_true_iff in F as [E F].
  apply Z.eqb_eq in E. subst. f_equal. apply IH; [lia|exact F].
Qed.

(** The text given to the encoder. *)
Definition to_encode (c : tconf) (s : list Z) : list Z :=
  if ((writetranslate c || tc_line_buffering c) && has_char LF s) && writetranslate c && negb (seq_eqb (writenl c) [LF])
  then replace_char LF (writenl c) s else s.
Lemma to_encode_eq c s : (tc_newline c = NlNone -> tc_linesep c <> []) -> to_encode c s = as_written (tc_newline c) (tc_linesep c) s.
Proof.
  intros Hsep. unfold to_encode, as_written. rewrite replace_flat. change LF with 10.
  assert (N : ~ In 10 s -> s = flat_map (fun x => if x =? 10 then line_ending (tc_newline c) (tc_linesep c) else [x]) s).
  { intros N. symmetry. apply flat_same. intros x Hx. destruct (Z.eqb_spec x 10); [subst; contradiction|reflexivity]. }
  assert (E : writetranslate c = true -> writenl c = line_ending (tc_newline c) (tc_linesep c)).
  { unfold writetranslate, writenl. destruct (tc_newline c); try reflexivity; discriminate. }
  destruct (writetranslate c) eqn:W; cbn [orb andb].
  - rewrite andb_true_r. destruct (has_char 10 s) eqn:H; cbn [andb].
    + destruct (seq_eqb (writenl c) [10]) eqn:Q; cbn [negb]; [|now rewrite (E eq_refl)].
      apply seq_eqb_eq in Q. rewrite (E eq_refl) in Q. rewrite Q. symmetry. apply flat_same. intros x Hx.
      destruct (Z.eqb_spec x 10); [now subst|reflexivity].
    + apply N. intros X. apply has_char_iff in X. congruence.
  - rewrite andb_false_r. cbn [andb]. unfold writetranslate in W. destruct (tc_newline c); try discriminate. cbn [line_ending].
    symmetry. apply flat_same. intros x Hx. destruct (Z.eqb_spec x 10); [now subst|reflexivity].
Qed.

Lemma bind_T {A C} (m : T A) (g : A -> T C) t a t' : m t = (Ok a, t') -> bind m g t = g a t'.
Proof. intros H. unfold bind. now rewrite H. Qed.
Lemma t_check_closed_ok t : f_closed (b_raw (t_b t)) = false -> t_check_closed t = (Ok tt, t).
Proof. intros H. unfold t_check_closed. now rewrite H. Qed.
Lemma t_write_lift c s t : f_closed (b_raw (t_b t)) = false ->
  match cd_encode (tc_codec c) (match t_enc t with Some e => e | None => cd_e0 (tc_codec c) end) (to_encode c s) with
  | None => exists t', t_write c s t = (Err EValue, t') /\ t_b t' = t_b t
  | Some (b, _) => exists (line : bool), let '(r, t') := t_write c s t in after_write c line b (len s) (t_b t) = (r, t_b t')
  end.
Proof.
  intros Hc. unfold t_write. rewrite (bind_T _ _ _ _ _ (t_check_closed_ok _ Hc)). fold (to_encode c s). cbv zeta.
  match goal with |- context [cd_encode ?a ?e ?s] => destruct (cd_encode a e s) as [[b e']|] eqn:E end; [|eexists; split; reflexivity].
  set (line := tc_line_buffering c && _). exists line.
  assert (L : lifts (upd_t (fun t0 => set_enc t0 (Some e')) ;;
     on_b (b_write (tc_kind c) b) ;;
     (if line then t_flush c else ret tt) ;;
     upd_t (fun t0 => match t_snap t0 with Some _ => set_snap (set_chars t0 [] 0) None | None => t0 end) ;;
     upd_t (fun t0 => match t_dec t0 with Some d => set_dec t0 (Some (dec_reset c d)) | None => t0 end) ;;
     ret (Z.of_nat (length s))) (after_write c line b (len s))).
  { apply lifts_upd; [reflexivity|]. unfold after_write. apply lifts_bind; [apply lifts_on_b|]. intros _.
    apply lifts_bind; [destruct line; [apply lifts_flush|apply lifts_ret]|]. intros _.
    apply lifts_upd; [intros t0; destruct (t_snap t0); reflexivity|]. apply lifts_upd; [intros t0; destruct (t_dec t0); reflexivity|].
    apply lifts_ret. }
  exact (L t).
Qed.

(** * Writing *)
Definition rest_of_body (h sync : bool) : B unit := b_flush BWriter ;; if sync then b_flush BWriter ;; b_sync h BWriter true true else ret tt.
Lemma lifts_rest c h (sync : bool) : tc_kind c = BWriter ->
  lifts (t_flush c ;; if sync then t_sync c h true true else ret tt) (rest_of_body h sync).
Proof.
  intros K. unfold rest_of_body. rewrite <- K. apply lifts_bind; [apply lifts_flush|]. intros _. destruct sync; [|apply lifts_ret].
  unfold t_sync. apply lifts_bind; [apply lifts_flush|]. intros _. apply lifts_on_b.
Qed.

Lemma rest_of_body_end h (sync : bool) b o i c : ends b o i c ->
  exists r b' o' i', rest_of_body h sync b = (r, b') /\ ends b' o' i' c /\ evolves b b' o o' /\ (exists x, n_data i' = n_data i ++ x)
    /\ (r = Ok tt -> b_wbuf b' = [] /\ (sync = true -> n_dirty i' = false)).
Proof.
  intros R. unfold rest_of_body. destruct sync.
  - unfold bind at 1. cbn [b_flush]. destruct (flush_end _ _ _ _ R) as (r1 & b1 & o1 & i1 & E1 & R1 & V1 & (x1 & T1) & F1). rewrite E1. destruct r1 as [[]|e].
    + destruct ((s_flush LWriter ;; s_sync h LWriter) b1) as [r2 b2] eqn:E2. pose proof E2 as E3.
      apply (flush_sync_end h true LWriter b1 o1 i1 c) in E2; [|auto|exact R1]. destruct E2 as (o2 & i2 & R2 & V2 & (x2 & T2) & _ & F2).
      exists r2, b2, o2, i2. split; [exact E3|]. split; [exact R2|]. split; [eapply evolves_trans; eauto|].
      split; [exists (x1 ++ x2); rewrite T2, T1, app_assoc; reflexivity|exact F2].
    + exists (Err e), b1, o1, i1. split; [reflexivity|]. split; [exact R1|]. split; [exact V1|]. split; [eauto|discriminate].
  - destruct ((s_flush LWriter ;; ret tt) b) as [r2 b2] eqn:E2. pose proof E2 as E3.
    apply (flush_sync_end h false LWriter b o i c) in E2; [|auto|exact R]. destruct E2 as (o2 & i2 & R2 & V2 & T2 & _ & F2).
    exists r2, b2, o2, i2. split; [exact E3|]. auto.
Qed.

Lemma close_both_end b o i c r b' : ends b o i c -> close_both BWriter b = (r, b') ->
  exists i' t, n_kind i' = KReg /\ w_inodes (b_w b') (o_uid o) = Some i' /\ n_data i' ++ t = c
    /\ (exists x, n_data i' = n_data i ++ x) /\ only_file (o_uid o) (b_w b) (b_w b') /\ (b_wbuf b = [] -> i' = i) /\ (r = Ok tt -> t = []).
Proof.
  intros R. unfold close_both. rewrite (lv_open _ _ _ _ (en_live _ _ _ _ R)). unfold finally. cbn [b_flush].
  destruct (flush_end _ _ _ _ R) as (r1 & b1 & o1 & i1 & E1 & R1 & V1 & (x1 & T1) & F1). rewrite E1.
  destruct (b_close BWriter b1) as [r2 b2] eqn:E2. intros H. assert (b' = b2) as -> by (destruct r2; injection H as <- <-; reflexivity).
  assert (Hi : b_wbuf b = [] -> i1 = i /\ b_wbuf b1 = []).
  { intros Hw. unfold flush_unlocked, bind, b_check_closed in E1. rewrite (lv_open _ _ _ _ (en_live _ _ _ _ R)) in E1.
    rewrite Hw in E1. cbn [length flush_loop] in E1. rewrite Hw in E1. injection E1 as <- <-.
    pose proof (lv_fd _ _ _ _ (en_live _ _ _ _ R)) as X1. rewrite (lv_fd _ _ _ _ (en_live _ _ _ _ R1)) in X1. injection X1 as ->.
    pose proof (lv_ino _ _ _ _ (en_live _ _ _ _ R)) as X2. rewrite (lv_ino _ _ _ _ (en_live _ _ _ _ R1)) in X2. split; congruence. }
  apply (s_close_end LWriter b1 o1 i1 c) in E2; [|auto|exact R1]. rewrite (so_uid _ _ (ev_o _ _ _ _ V1)) in E2.
  destruct E2 as (i2 & t & K2 & I2 & C2 & (x2 & T2) & N2 & S2 & F2).
  exists i2, t. split; [exact K2|]. split; [exact I2|]. split; [exact C2|]. split; [exists (x1 ++ x2); rewrite T2, T1, app_assoc; reflexivity|].
  split; [eapply only_file_trans; [apply (only_file_evolves _ _ _ _ V1)|exact N2]|].
  split. { intros Hw. destruct (Hi Hw) as [<- Hw1]. auto. }
  intros ->. destruct r2 as [[]|]; [|discriminate]. auto.
Qed.

(** The encoder at the start of the write. *)
Definition enc_start (cd : codec) (o : ofd) : Z := if o_pos o =? 0 then cd_e0 cd else 0.

Lemma text_body_end h (sync : bool) s c f size w o i r t' :
  live f w o i -> at_end o i -> f_writable f = true -> 0 <= size -> tc_kind c = BWriter -> (tc_newline c = NlNone -> tc_linesep c <> []) ->
  finally (text_body h sync s c) (t_close c) (t_fresh (fresh f size w)) = (r, t') ->
  exists i' x y, n_kind i' = KReg /\ w_inodes (b_w (t_b t')) (o_uid o) = Some i' /\ n_data i' = n_data i ++ x
    /\ only_file (o_uid o) w (b_w (t_b t'))
    /\ match cd_encode (tc_codec c) (enc_start (tc_codec c) o) (as_written (tc_newline c) (tc_linesep c) s) with
       | Some (b, _) => b = x ++ y
       | None => x = [] /\ r <> Ok tt
       end
    /\ (r = Ok tt -> y = [] /\ (sync = true -> n_dirty i' = false)).
Proof.
  intros L A W Hs K Hsep H. set (t0 := t_fresh (fresh f size w)) in *.
  assert (B0 : t_b t0 = fresh f size w) by reflexivity.
  assert (E0 : match t_enc t0 with Some e => e | None => cd_e0 (tc_codec c) end = enc_start (tc_codec c) o).
  { unfold t0, t_fresh, enc_start. cbn [fresh b_raw b_w t_enc]. rewrite (lv_seek _ _ _ _ L), W, (lv_fd _ _ _ _ L). cbn [andb].
    destruct (o_pos o =? 0); reflexivity. }
  pose proof (t_write_lift c s t0 (lv_open _ _ _ _ L)) as Wr. rewrite E0, (to_encode_eq c s Hsep) in Wr.
  (* the body *)
  assert (Bd : exists r1 t1 o1 i1 x y, text_body h sync s c t0 = (r1, t1)
     /\ match cd_encode (tc_codec c) (enc_start (tc_codec c) o) (as_written (tc_newline c) (tc_linesep c) s) with
        | Some (b, _) => b = x ++ y | None => x = [] /\ r1 <> Ok tt end
     /\ ends (t_b t1) o1 i1 (n_data i ++ x) /\ evolves (fresh f size w) (t_b t1) o o1 /\ (exists t, n_data i1 = n_data i ++ t)
     /\ (r1 = Ok tt -> y = [] /\ b_wbuf (t_b t1) = [] /\ (sync = true -> n_dirty i1 = false))).
  { unfold text_body. unfold bind at 1. destruct (cd_encode _ _ _) as [[b e']|] eqn:Ee.
    - destruct Wr as (line & Wr). destruct (t_write c s t0) as [r1 t1]. rewrite B0 in Wr. unfold after_write in Wr. rewrite K in Wr. cbn [b_write b_flush] in Wr.
      unfold bind at 1 in Wr.
      destruct (writer_write_end f size w o i b L A W Hs) as (r2 & b2 & o2 & i2 & x & y & E2 & Hd & R2 & V2 & (z2 & T2) & F2). rewrite E2 in Wr.
      assert (Mid : exists o1 i1, ends (t_b t1) o1 i1 (n_data i ++ x) /\ evolves (fresh f size w) (t_b t1) o o1 /\ (exists t, n_data i1 = n_data i ++ t) /\ (forall n, r1 = Ok n -> y = [])).
      { destruct r2 as [n|e].
        - unfold bind in Wr. destruct line; [destruct (flush_end _ _ _ _ R2) as (r3 & b3 & o3 & i3 & E3 & R3 & V3 & (x3 & T3) & F3); rewrite E3 in Wr|].
          + exists o3, i3. destruct r3; injection Wr as <- <-; (split; [exact R3|]; split; [eapply evolves_trans; eauto|]; split; [exists (z2 ++ x3); rewrite T3, T2, app_assoc; reflexivity|]).
            * intros ? _. eapply F2. reflexivity.
            * discriminate.
          + injection Wr as <- <-. exists o2, i2. split; [exact R2|]. split; [exact V2|]. split; [eauto|]. intros ? _. eapply F2. reflexivity.
        - injection Wr as <- <-. exists o2, i2. split; [exact R2|]. split; [exact V2|]. split; [eauto|discriminate]. }
      destruct Mid as (o1 & i1 & R1 & V1 & (x1 & T1) & F1). destruct r1 as [n|e].
      + pose proof (lifts_rest c h sync K t1) as Lr. destruct ((t_flush c ;; _) t1) as [r3 t3] eqn:E3.
        destruct (rest_of_body_end h sync _ _ _ _ R1) as (r4 & b4 & o4 & i4 & E4 & R4 & V4 & (x4 & T4) & F4). rewrite E4 in Lr. injection Lr as -> ->.
        exists r3, t3, o4, i4, x, y. split; [reflexivity|]. split; [exact Hd|]. split; [exact R4|]. split; [eapply evolves_trans; eauto|].
        split; [exists (x1 ++ x4); rewrite T4, T1, app_assoc; reflexivity|]. intros X. split; [eapply F1; reflexivity|]. now apply F4.
      + exists (Err e), t1, o1, i1, x, y. split; [reflexivity|]. split; [exact Hd|]. split; [exact R1|]. split; [exact V1|]. split; [eauto|discriminate].
    - destruct Wr as (t1 & E1 & B1). rewrite E1. exists (Err EValue), t1, o, i, [], []. rewrite B1, B0, app_nil_r. split; [reflexivity|]. split; [split; [reflexivity|discriminate]|].
      split; [constructor; auto; cbn; now rewrite app_nil_r|]. split; [auto with frame|]. split; [exists []; now rewrite app_nil_r|discriminate]. }
  destruct Bd as (r1 & t1 & o1 & i1 & x & y & E1 & Hd & R1 & V1 & (x1 & T1) & F1).
  unfold finally in H. rewrite E1 in H. pose proof (lifts_close c t1) as Lc. destruct (t_close c t1) as [r2 t2]. rewrite K in Lc.
  assert (t' = t2) as -> by (destruct r2; injection H as <- <-; reflexivity).
  destruct (close_both_end _ _ _ _ _ _ R1 Lc) as (i2 & z & K2 & I2 & C2 & (x2 & T2) & N2 & S2 & F2).
  rewrite (so_uid _ _ (ev_o _ _ _ _ V1)) in *. pose proof C2 as C3. rewrite T2, T1, <- !app_assoc in C3. apply app_inv_head in C3.
  exists i2, (x1 ++ x2), (z ++ y). split; [exact K2|]. split; [exact I2|]. split; [rewrite T2, T1, app_assoc; reflexivity|].
  split; [eapply only_file_trans; [apply (only_file_evolves _ _ _ _ V1)|exact N2]|].
  split.
  - destruct (cd_encode _ _ _) as [[b e']|].
    + rewrite Hd, <- C3, !app_assoc. reflexivity.
    + destruct Hd as [-> Hr]. destruct x1, x2; try discriminate C3. split; [reflexivity|]. intros ->. apply Hr. destruct r2 as [[]|]; [|discriminate]. congruence.
  - intros ->. destruct r2 as [[]|]; [|discriminate]. injection H as ->. destruct (F1 eq_refl) as (-> & Hw & Hdirty). rewrite (F2 eq_refl), (S2 Hw). auto.
Qed.

(** * Reading *)
Lemma b_read_good f size w o i r b' : live f w o i -> no_block w -> o_pos o <= len (n_data i) -> f_readable f = true ->
  b_read BReader None (fresh f size w) = (Ok r, b') ->
  exists w' o', b' = fresh f size w' /\ r = Some (skipn (Z.to_nat (o_pos o)) (n_data i)) /\ live f w' o' i
    /\ o' = set_pos o (len (n_data i)) /\ frame (fd_of f) (o_uid o) w w' /\ w_inodes w' = w_inodes w.
Proof. intros L Nb Hp R H. apply (s_read_good LReader f size w o i r b'); auto. Qed.

(** read() on a text stream with nothing decoded yet *)
Lemma t_read_all_good c f size w o i t d t' : plain_codec (tc_codec c) -> tc_kind c = BReader -> t_b t = fresh f size w -> t_chars t = [] -> t_snap t = None ->
  live f w o i -> no_block w -> o_pos o <= len (n_data i) -> f_readable f = true ->
  t_read c None t = (Ok d, t') ->
  exists w' o' dc, t_b t' = fresh f size w' /\ t_chars t' = [] /\ t_snap t' = None /\ live f w' o' i
    /\ o' = set_pos o (len (n_data i)) /\ frame (fd_of f) (o_uid o) w w' /\ w_inodes w' = w_inodes w
    /\ t_dec t' = Some dc /\ dec_decode c (t_decoder c t) (skipn (Z.to_nat (o_pos o)) (n_data i)) true = Some (d, dc).
Proof.
  intros P K B Hc Hs L Nb Hp R H. unfold t_read in H. cbv zeta in H. change (-1 <? 0) with true in H. cbv iota in H.
  unfold bind at 1, t_check_readable at 1 in H. rewrite K in H. unfold t_check_closed at 1 in H. rewrite B in H. cbn [fresh b_raw] in H. rewrite (lv_open _ _ _ _ L) in H.
  unfold bind at 1, t_make_decoder, upd_t at 1 in H. set (t1 := match t_dec t with Some _ => t | None => set_dec t (Some (dec_init c)) end) in H.
  assert (T1 : t_b t1 = fresh f size w /\ t_chars t1 = [] /\ t_snap t1 = None /\ t_decoder c t1 = t_decoder c t).
  { unfold t1, t_decoder. destruct (t_dec t) eqn:E; cbn; try rewrite E; auto. }
  destruct T1 as (T1 & T2 & T3 & T4). unfold bind at 1, get_chars at 1 in H. rewrite T2 in H. rewrite skipn_nil in H. cbn [length] in H.
  set (t2 := set_chars t1 [] (t_used t1 + 0)) in H. unfold bind at 1, on_b at 1 in H. change (t_b t2) with (t_b t1) in H. rewrite T1 in H.
  destruct (b_read BReader None (fresh f size w)) as [[rd|] b1] eqn:E; [|discriminate].
  destruct (b_read_good _ _ _ _ _ _ _ L Nb Hp R E) as (w1 & o1 & -> & -> & L1 & Eo & F1 & I1).
  unfold bind at 1, t_decode at 1 in H. change (t_decoder c (set_b t2 (fresh f size w1))) with (t_decoder c t1) in H. rewrite T4 in H.
  destruct (dec_decode c (t_decoder c t) _ true) as [[out dc]|]; [|discriminate].
  unfold bind, upd_t, ret in H. cbn [set_dec set_b t_snap t2 set_chars] in H. rewrite T3 in H. injection H as <- <-.
  exists w1, o1, dc. cbn. repeat (split; [solve [auto]|]). reflexivity.
Qed.

Lemma text_whole_good c f size w o i d t' : plain_codec (tc_codec c) -> tc_kind c = BReader -> live f w o i -> no_block w -> o_pos o = 0 -> f_readable f = true ->
  text_whole c (t_fresh (fresh f size w)) = (Ok d, t') ->
  text_of (tc_codec c) (tc_newline c) (n_data i) d
  /\ exists w' o', t_b t' = fresh f size w' /\ live f w' o' i /\ frame (fd_of f) (o_uid o) w w' /\ w_inodes w' = w_inodes w.
Proof.
  intros P K L Nb Hp R H. pose proof (len_nonneg (n_data i)) as Ln.
  unfold text_whole, bind at 1, on_b at 1, on_raw, readall_fuel in H. cbn [t_fresh fresh b_raw b_w t_b] in H.
  rewrite (lv_fd _ _ _ _ L), (lv_ino _ _ _ _ L) in H. 
  match type of H with text_blocks _ c [] ?t = _ => set (t0 := t) in H end.
  assert (T0 : t_b t0 = fresh f size w /\ t_chars t0 = [] /\ t_snap t0 = None /\ t_decoder c t0 = dec_init c) by (repeat split).
  clearbody t0. destruct T0 as (T1 & T2 & T3 & T4).
  cbn [text_blocks] in H. unfold bind at 1 in H. destruct (t_read c None t0) as [[d1|] t1] eqn:E1; [|discriminate].
  destruct (t_read_all_good c f size w o i _ _ _ P K T1 T2 T3 L Nb ltac:(lia) R E1) as (w1 & o1 & dc & U1 & U2 & U3 & L1 & Eo & F1 & I1 & U4 & D1).
  rewrite Hp, T4 in D1. change (skipn (Z.to_nat 0) (n_data i)) with (n_data i) in D1.
  (* what was decoded *)
  assert (Dec : exists raw st, cd_decode (tc_codec c) ([], cd_d0 (tc_codec c)) (n_data i) true = Some (raw, st) /\ newlines_read (tc_newline c) raw d1
            /\ core c dc = (fst st, snd st, false)).
  { pose proof (dec_decode_core c (dec_init c) (n_data i) true) as X. rewrite D1, init_core in X. unfold dstep in X.
    destruct (cd_decode (tc_codec c) ([], cd_d0 (tc_codec c)) (n_data i) true) as [[raw [b' f']]|]; [|discriminate].
    exists raw, (b', f'). split; [reflexivity|]. unfold newlines_read, readuniversal, readtranslate, nlc, heldb in *. cbn [negb] in X. rewrite andb_false_r in X. cbn [app] in X. unfold emit in X.
    set (k := core c dc) in *. clearbody k. destruct (tc_newline c); injection X as <- <-; try (split; [reflexivity|reflexivity]).
    destruct (pieces_exist raw) as [ps Hps]. split; [exists ps; split; [exact Hps|now apply univ_pieces]|reflexivity]. }
  destruct Dec as (raw & st & D2 & D3 & D4).
  assert (Tx : text_of (tc_codec c) (tc_newline c) (n_data i) d1) by (exists raw, st; auto).
  destruct d1 as [|z d1'].
  - injection H as <- <-. split; [exact Tx|]. exists w1, o1. auto.
  - set (d1 := z :: d1') in *. unfold bind at 1 in H. destruct (t_read c None t1) as [[d2|] t2] eqn:E2; [|discriminate].
    assert (Nb1 : no_block w1) by (eapply no_block_incl; [apply (fr_io _ _ _ _ F1)|exact Nb]).
    assert (Hp1 : o_pos o1 <= len (n_data i)) by (subst o1; cbn; lia).
    destruct (t_read_all_good c f size w1 o1 i _ _ _ P K U1 U2 U3 L1 Nb1 Hp1 R E2) as (w2 & o2 & dc2 & V1 & V2 & V3 & L2 & Eo2 & F2 & I2 & V4 & D5).
    assert (d2 = []) as ->.
    { unfold t_decoder in D5. rewrite U4 in D5. subst o1. cbn [set_pos o_pos] in D5.
      replace (skipn (Z.to_nat (len (n_data i))) (n_data i)) with (@nil Z) in D5 by (unfold len; rewrite Nat2Z.id, skipn_all; reflexivity).
      pose proof (dec_decode_core c dc [] true) as X. rewrite D5, D4 in X. unfold dstep in X. destruct (pc_end _ P _ _ _ D2) as (s' & Es).
      replace (fst st, snd st) with st in X by (destruct st; reflexivity). rewrite Es in X. destruct s' as [b3 f3].
      unfold nlc, heldb in X. cbn in X. unfold emit in X. destruct (readuniversal c), (readtranslate c); injection X; intros; subst; reflexivity. }
    injection H as <- <-. split; [exact Tx|]. exists w2, o2. split; [exact V1|]. split; [exact L2|]. split; [|congruence].
    eapply frame_trans; [exact F1|]. subst o1. exact F2.
Qed.

(** * The arguments *)
Definition prelude_text (py_u : bool) (a : textargs) (mode : list ascii) : res (raw_kwargs * ext_kwargs) :=
  prelude_of py_u (text_open_args a mode).
Lemma text_read_prelude py_u a p : fa_name (ta_file a) = NPath p ->
  prelude_text py_u a text_read_mode = Ok (mkRaw (NPath p) true false false false true false false None None true, mkExt false false false).
Proof.
  intros H. unfold prelude_text, prelude_of, text_open_args. destruct a as [[n bu en er nl lk ti] cd nl' sep er']. cbn [ta_file fa_name] in H. subst n.
  destruct py_u, en, er, nl; cbn; reflexivity.
Qed.
Lemma text_write_prelude py_u a p mc mn : fa_name (ta_file a) = NPath p ->
  prelude_text py_u a (text_write_mode mc mn) = Ok (mkRaw (NPath p) false true false mc mn false false None None true, mkExt (negb mc) false false).
Proof.
  intros H. unfold prelude_text, prelude_of, text_open_args. destruct a as [[n bu en er nl lk ti] cd nl' sep er']. cbn [ta_file fa_name] in H. subst n.
  destruct py_u, en, er, nl, mc, mn; cbn; reflexivity.
Qed.
Lemma text_append_prelude py_u a p mn : fa_name (ta_file a) = NPath p ->
  prelude_text py_u a (text_append_mode mn) = Ok (mkRaw (NPath p) false true true false mn false false None None true, mkExt false false false).
Proof.
  intros H. unfold prelude_text, prelude_of, text_open_args. destruct a as [[n bu en er nl lk ti] cd nl' sep er']. cbn [ta_file fa_name] in H. subst n.
  destruct py_u, en, er, nl, mn; cbn; reflexivity.
Qed.
