(** C102: detach(). *)
From Coq Require Import ZArith Ascii String List Bool Lia.
From Verif Require Import M_Base M_Modes M_Registry M_Kernel M_World M_Raw M_Buffered M_BufLines M_Newline M_Text M_Layers M_Detach
  S_Bytes S_Raw S_Locks S_LockFile S_Open S_Buffered S_BufLine S_Demo S_Newline S_Text S_TextOut S_Codecs P_Bytes P_Raw P_Close P_Frame P_LockFile P_Open
  P_Buffered P_BufOps P_BufRun P_BufLine P_Newline P_Decode P_TextBase P_Codecs P_TextFiles C_Raw C_Buffered C_BufLine C_Text C_TextOut C_Layers.
Import ListNotations.
Open Scope Z_scope.

(** The stream handed over, used by any program, behaves as the byte array [c] with the cursor at [q]. *)
Definition goes_on (a : acc) (f : rawio) (w : world) (u : uid) (c : list Z) (q : Z) : Prop :=
  forall rops routs w', Forall wf_op rops -> run_rops f rops w = (routs, w') ->
  exists c' q', aruns False a (c, q) rops routs (c', q') /\ holds_file w' u c'.
(** The stream that was detached is dead: it cannot be detached again, closing or forgetting it changes nothing. *)
Definition dead (k : bkind) (d : dbuf) : Prop :=
  b_detach k d = (Err EValue, d) /\ db_close k d = (Ok tt, d) /\ db_del k d = (Ok tt, d).

Lemma live_goes_on f w o i : live f w o i -> no_epipe w -> tame False f w o ->
  goes_on (acc_of f o) f w (o_uid o) (n_data i) (o_pos o).
Proof.
  intros L P T rops routs w' Wf H. destruct (rops_refine False f rops w o i L Wf P T routs w' H) as (o' & i' & L' & U & _ & _ & _ & _ & X).
  exists (n_data i'), (o_pos o'). split; [exact X|]. exists i'. split; [|reflexivity]. rewrite <- U. apply (lv_ino _ _ _ _ L').
Qed.
Lemma dead_false k b : dead k (mkDb b false).
Proof. repeat split. Qed.

(** Whatever was done with the stream: detach() writes what is pending and hands over the raw stream, which goes on with the
    same bytes, from a place that is the position of the stream or, if it had read ahead, further.  For a stream that is only
    written it is the position. *)
Theorem C102_hands_over_partial : forall k w o i f size ops outs b, reached k w o i f size ops outs b ->
  exists c p q f' d, baruns (acc_kind k) (n_data i, o_pos o) ops outs (c, p)
    /\ b_detach k (mkDb b true) = (Ok f', d) /\ f_closed f' = false /\ dead k d
    /\ goes_on (mkAcc (f_readable f') (f_writable f') false) f' (b_w (db_b d)) (o_uid o) c q
    /\ p <= q <= Z.max p (len c) /\ (k = BWriter -> q = p).
Proof.
  intros k w o i f size ops outs b H. destruct (reached_rep _ _ _ _ _ _ _ _ _ H) as (o' & i' & c & p & R & Ap & T & P & U & _ & X).
  destruct (b_flush_ok False k b o' i' c p R T) as (r & b' & o2 & i2 & E & [R2 V2 _ _ _ [[-> W]|[[] _]]]).
  destruct (rep_flat _ _ _ _ _ _ R2 W) as [Hc Ho].
  exists c, p, (o_pos o2), (b_raw b'), (mkDb b' false). split; [exact X|].
  split; [unfold b_detach; cbn [db_raw db_b]; now rewrite E|]. pose proof (rp_live _ _ _ _ _ _ R2) as L2.
  split; [apply (lv_open _ _ _ _ L2)|]. split; [apply dead_false|]. split.
  - cbn [db_b]. rewrite <- Hc, <- U, <- (so_uid _ _ (ev_o _ _ _ _ V2)).
    replace (mkAcc (f_readable (b_raw b')) (f_writable (b_raw b')) false) with (acc_of (b_raw b') o2)
      by (unfold acc_of; now rewrite (so_app _ _ (ev_o _ _ _ _ V2)), Ap).
    apply live_goes_on; auto; [exact (no_epipe_evolves _ _ _ _ V2 P)|exact (tameb_evolves _ _ _ _ _ V2 T)].
  - rewrite Ho. split; [eapply in_flushed; eauto|]. intros ->. unfold unread. rewrite (rp_nord _ _ _ _ _ _ R2 eq_refl).
    destruct (b_rpos b'); cbn; lia.
Qed.

(** After a write, or when the buffers were reset (as lock_file() and unlock_file() do, or seek(0, 1)), it is the position for
    every stream. *)
Theorem C102_after_write : forall k w o i f size ops outs b d r b1, k <> BReader -> reached k w o i f size ops outs b ->
  b_write k d b = (r, b1) ->
  exists c p f' x, baruns (acc_kind k) (n_data i, o_pos o) (ops ++ [BoWrite d]) (outs ++ [OInt (len d)]) (c, p)
    /\ b_detach k (mkDb b1 true) = (Ok f', x) /\ fst (raw_tell f' (b_w (db_b x))) = Ok p /\ holds_file (b_w (db_b x)) (o_uid o) c.
Proof.
  intros k w o i f size ops outs b d r b1 K H Ew.
  destruct (C96_flush_after_write k w o i f size ops outs b d r b1 K H Ew) as (c & p & b' & X & _ & E & [F1 _ F3]).
  exists c, p, (b_raw b'), (mkDb b' false). split; [exact X|]. split; [unfold b_detach; cbn [db_raw db_b]; now rewrite E|].
  split; [|exact F1]. unfold b_raw_tell, on_raw in F3. cbn [db_b]. destruct (raw_tell (b_raw b') (b_w b')); exact F3.
Qed.
Theorem C102_after_reset : forall k w o i f size ops outs b, reached k w o i f size ops outs b ->
  exists c p b1 f' x, baruns (acc_kind k) (n_data i, o_pos o) ops outs (c, p) /\ reset_buffers k b = (Ok tt, b1)
    /\ b_detach k (mkDb b1 true) = (Ok f', x)
    /\ goes_on (mkAcc (f_readable f') (f_writable f') false) f' (b_w (db_b x)) (o_uid o) c p.
Proof.
  intros k w o i f size ops outs b H. destruct (reached_rep _ _ _ _ _ _ _ _ _ H) as (o' & i' & c & p & R & Ap & T & P & U & _ & X).
  destruct (reset_ok False k b o' i' c p R T) as (r & b' & o2 & i2 & E & V & R2 & [(-> & Er & Ew & _)|([] & _)]).
  pose proof (tameb_evolves _ _ _ _ _ V T) as T2. pose proof (no_epipe_evolves _ _ _ _ V P) as P2.
  destruct (b_flush_ok False k b' o2 i2 c p R2 T2) as (r3 & b3 & o3 & i3 & E3 & [R3 V3 Q1 Q2 _ [[-> W]|[[] _]]]).
  destruct (rep_flat _ _ _ _ _ _ R3 W) as [Hc Ho].
  exists c, p, b', (b_raw b3), (mkDb b3 false). split; [exact X|]. split; [exact E|].
  split; [unfold b_detach; cbn [db_raw db_b]; now rewrite E3|]. cbn [db_b].
  rewrite <- Hc, <- U, <- (so_uid _ _ (ev_o _ _ _ _ V)), <- (so_uid _ _ (ev_o _ _ _ _ V3)).
  replace p with (o_pos o3).
  2:{ rewrite Ho. unfold unread. rewrite Q1, Er. destruct (b_rpos b3); cbn; lia. }
  replace (mkAcc (f_readable (b_raw b3)) (f_writable (b_raw b3)) false) with (acc_of (b_raw b3) o3)
    by (unfold acc_of; now rewrite (so_app _ _ (ev_o _ _ _ _ V3)), (so_app _ _ (ev_o _ _ _ _ V)), Ap).
  apply live_goes_on; [apply (rp_live _ _ _ _ _ _ R3)|exact (no_epipe_evolves _ _ _ _ V3 P2)|exact (tameb_evolves _ _ _ _ _ V3 T2)].
Qed.

(** If system calls fail, a detach() of a writer that raises leaves the stream attached, with what is not yet written; one that succeeds
    has written everything. *)
Theorem C102_failing : forall f size ops w o i outs b r d,
  live f w o i -> o_app o = false -> 0 < size -> f_writable f = true ->
  run_bops BWriter ops (fresh f size w) = (outs, b) -> b_detach BWriter (mkDb b true) = (r, d) ->
  exists c p i' o', S_Buffered.wruns (n_data i, o_pos o) ops outs (c, p)
    /\ w_inodes (b_w (db_b d)) (o_uid o) = Some i' /\ w_fds (b_w (db_b d)) (fd_of f) = Some o'
    /\ match r with
       | Ok _ => db_raw d = false /\ n_data i' = c
       | Err _ => db_raw d = true /\ stored_at (n_data i') (o_pos o') (b_wbuf (db_b d)) c
       end.
Proof.
  intros f size ops w o i outs b r d L A S Wf E Ed.
  destruct (C32_failing_flush f size ops w o i outs b L A S Wf E) as (c & p & X & _ & Y).
  unfold b_detach in Ed. cbn [db_raw db_b] in Ed. destruct (b_flush BWriter b) as [rf b2] eqn:Ef.
  destruct (Y rf b2 eq_refl) as (i2 & o2 & H1 & H2 & H3 & H4).
  exists c, p, i2, o2. destruct rf as [[]|e]; injection Ed as <- <-; cbn [db_b db_raw]; (split; [exact X|]); (split; [exact H1|]); (split; [exact H2|]);
    split; auto. now apply H4.
Qed.

(** Text streams that write: what was accepted is in the file when detach() returns, otherwise it is still pending and the
    stream is attached. *)
Theorem C102_text_writer : forall c f size ops w o i outs t r d, writing c f size w o i ->
  run_wops c ops (text_fresh f size w) = (outs, t) -> t_detach c (mkDt t true) = (r, d) ->
  exists C p e,
    toruns (tc_codec c) (tc_newline c) (tc_linesep c) (tc_line_buffering c) (o_app o)
      (n_data i, o_pos o, enc_start (tc_codec c) o) ops outs (C, p, e)
    /\ match r with
       | Ok b => dt_buffer d = false /\ f_closed (b_raw b) = false /\ holds_file (b_w b) (o_uid o) C /\ fst (b_tell (tc_kind c) b) = Ok p
                 /\ t_detach c d = (Err EValue, d) /\ dt_close c d = (Ok tt, d)
       | Err _ => dt_buffer d = true
                 /\ pending_in (o_app o) (b_w (t_b (dt_t d))) (o_uid o) C (b_wbuf (t_b (dt_t d)))
       end.
Proof.
  intros c f size ops w o i outs t r d Wg E Ed. destruct (writing_rep _ _ _ _ _ _ Wg) as [R En].
  destruct (toruns_ok c (wg_kind _ _ _ _ _ _ Wg) (wg_sep _ _ _ _ _ _ Wg) ops _ _ _ _ _ R outs t E) as (o' & i' & C & p & R' & V' & X & _).
  rewrite En in X. exists C, p, (enc_of c t). split; [exact X|].
  unfold t_detach in Ed. cbn [dt_buffer dt_t] in Ed. destruct (t_flush_run c t) as (r1 & t1 & E1 & B1 & _). rewrite E1 in Ed.
  destruct (b_flush_ok True (tc_kind c) (t_b t) o' i' C p R' ltac:(left; auto)) as (r2 & b2 & o2 & i2 & E2 & [R2 V2 _ _ _ C2]).
  rewrite B1 in E2. injection E2 as <- <-.
  assert (U : o_uid o2 = o_uid o) by (now rewrite (so_uid _ _ (ev_o _ _ _ _ V2)), (so_uid _ _ (ev_o _ _ _ _ V'))).
  assert (A : o_app o2 = o_app o) by (now rewrite (so_app _ _ (ev_o _ _ _ _ V2)), (so_app _ _ (ev_o _ _ _ _ V'))).
  destruct C2 as [[-> Hw]|(_ & _ & e & -> & _)]; injection Ed as <- <-; cbn [dt_buffer dt_t].
  - destruct (rep_flat _ _ _ _ _ _ R2 Hw) as [Hc Ho]. split; auto. split; [apply (lv_open _ _ _ _ (rp_live _ _ _ _ _ _ R2))|].
    split; [rewrite <- U; eapply rep_settled; eauto|]. split; [|split; reflexivity].
    destruct (b_tell_ok _ _ _ _ _ _ R2 (epos_clean _ _ _ Hw)) as (b' & -> & _). reflexivity.
  - split; auto. rewrite <- U, <- A. eapply rep_pending; eauto.
Qed.

(** False of streams that read: the raw stream is not where the buffered stream was. *)
Definition detach_keeps_position : Prop := forall k w o i f size ops outs b c p f' d,
  reached k w o i f size ops outs b -> baruns (acc_kind k) (n_data i, o_pos o) ops outs (c, p) ->
  b_detach k (mkDb b true) = (Ok f', d) -> fst (raw_tell f' (b_w (db_b d))) = Ok p.
Theorem C102_position_refuted : ~ detach_keeps_position.
Proof.
  intros H. destruct demo_reader as (f & w & o & i & Eo & S & D & Po & _).
  specialize (H BReader w o i f 4 [BoRead (Some 1)]).
  destruct (run_bops BReader [BoRead (Some 1)] (fresh f 4 w)) as [outs b] eqn:E.
  destruct (b_detach BReader (mkDb b true)) as [r d] eqn:E2.
  assert (X : outs = [OBytes [1]] /\ match r with Ok f' => fst (raw_tell f' (b_w (db_b d))) = Ok 4 | Err _ => False end).
  { vm_compute in Eo. injection Eo as <- <-. vm_compute in E. injection E as <- <-. vm_compute in E2. injection E2 as <- <-. vm_compute. auto. }
  destruct X as (-> & X). destruct r as [f'|e]; [|contradiction].
  rewrite (H [OBytes [1]] b [1;2;3;4;5;6] 1 f' d) in X; auto; [discriminate|split; [exact S|split; [exact E|discriminate]]|].
  rewrite D, Po. eapply BAR_cons; [|constructor]. change 1 with (0 + len [1]) at 2. eapply BA_read; [reflexivity|discriminate|reflexivity|].
  split; [right; vm_compute; discriminate|]. intros j Hj. change (len [1]) with 1 in Hj. assert (j = 0) as -> by lia. reflexivity.
Qed.
(** Of text streams that read: the bytes of the chunk that was decoded are lost. *)
Definition text_detach_keeps_text : Prop := forall data s t b d rest b2, Forall (fun x => 0 <= x < 128) data ->
  t_read (conf BReader NlEmpty) (Some 1) (demo_text BReader 4096 data []) = (Ok s, t) ->
  t_detach (conf BReader NlEmpty) (mkDt t true) = (Ok b, d) -> b_read BReader None b = (Ok (Some rest), b2) -> s ++ rest = data.
Theorem C102_text_position_refuted : ~ text_detach_keeps_text.
Proof.
  intros H. assert (F : Forall (fun x => 0 <= x < 128) [97; 98; 99]) by (repeat constructor; lia).
  destruct (t_read (conf BReader NlEmpty) (Some 1) (demo_text BReader 4096 [97; 98; 99] [])) as [r t1] eqn:E.
  destruct (t_detach (conf BReader NlEmpty) (mkDt t1 true)) as [r2 d] eqn:E2.
  assert (X : r = Ok [97] /\ match r2 with Ok b => fst (b_read BReader None b) = Ok (Some []) | Err _ => False end).
  { vm_compute in E. injection E as <- <-. vm_compute in E2. injection E2 as <- <-. vm_compute. auto. }
  destruct X as (-> & X). destruct r2 as [b|e]; [|contradiction].
  destruct (b_read BReader None b) as [r3 b3] eqn:E3. cbn [fst] in X. subst r3.
  specialize (H _ _ _ _ _ _ _ F E E2 E3). discriminate.
Qed.

(** A writer with three bytes pending: they are in the file, the raw stream goes on after them, and closing the detached stream does
    not close it. *)
Example C102_example :
  let b := demo_buf BRandom 4 [1;2;3;4;5;6;7;8] [] in
  let '(_, b1) := b_write BRandom [9;9;9] b in
  let '(r, d) := b_detach BRandom (mkDb b1 true) in
  let '(_, d2) := db_close BRandom d in
  match r with
  | Ok f => content (b_w (db_b d2)) (1, 10) = [9;9;9;4;5;6;7;8] /\ fst (raw_tell f (b_w (db_b d2))) = Ok 3
            /\ fst (raw_read f (Some 2) (b_w (db_b d2))) = Ok (Some [4;5])
  | Err _ => False
  end.
Proof. vm_compute. auto. Qed.
Print Assumptions C102_hands_over_partial.
Print Assumptions C102_after_write.
Print Assumptions C102_after_reset.
Print Assumptions C102_failing.
Print Assumptions C102_text_writer.
Print Assumptions C102_position_refuted.
Print Assumptions C102_text_position_refuted.
