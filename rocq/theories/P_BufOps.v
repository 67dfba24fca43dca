(** The operations of the buffered streams, one by one (C31, C32). *)
From Coq Require Import ZArith Ascii String List Bool Lia.
From Verif Require Import M_Base M_Modes M_Registry M_Kernel M_World M_Raw M_Buffered S_Bytes S_Raw S_Buffered
  P_Bytes P_Raw P_Buffered.
Import ListNotations.
Open Scope Z_scope.

Lemma set_world_same b : set_world b (b_w b) = b.
Proof. destruct b; reflexivity. Qed.

(** * raw.seek and raw.tell as called by the buffers *)

Lemma raw_seek_live f w o i off wh : live f w o i ->
  raw_seek f off wh w =
  match seek_base o i wh with
  | None => (Err (EOS EINVAL), w)
  | Some b => if b + off <? 0 then (Err (EOS EINVAL), w)
              else (Ok (b + off), upd_fd w (fd_of f) (Some (set_pos o (b + off))))
  end.
Proof.
  intros L. unfold raw_seek, bind. rewrite (check_closed_live _ _ _ _ L). now apply inner_seek_live.
Qed.

Lemma mixin_tell_ok k b o i c p : rep k b o i c p ->
  exists w', mixin_tell b = (Ok (o_pos o), set_world b w') /\ live (b_raw b) w' o i
    /\ frame (fd_of (b_raw b)) (o_uid o) (b_w b) w'.
Proof.
  intros R. pose proof (rp_live _ _ _ _ _ _ R) as L. unfold mixin_tell, bind, on_raw.
  rewrite (raw_tell_live _ _ _ _ L). pose proof (lv_pos _ _ _ _ L).
  destruct (Z.ltb_spec (o_pos o) 0); [lia|]. eexists. split; [reflexivity|].
  split; [now apply live_refd|apply frame_fd].
Qed.

Lemma rep_world k b o i c p w : rep k b o i c p -> live (b_raw b) w o i -> rep k (set_world b w) o i c p.
Proof. intros [] L. constructor; auto. Qed.

Lemma b_tell_ok k b o i c p : rep k b o i c p -> epos b o i = o_pos o ->
  exists b', b_tell k b = (Ok p, b') /\ rep k b' o i c p /\ evolves b b' o o
    /\ b_rbuf b' = b_rbuf b /\ b_rpos b' = b_rpos b /\ b_wbuf b' = b_wbuf b.
Proof.
  intros R Ee. destruct (mixin_tell_ok _ _ _ _ _ _ R) as (w' & E & L' & F).
  assert (V : evolves b (set_world b w') o o) by (apply evolves_world; auto with frame).
  pose proof (rep_world _ _ _ _ _ _ w' R L') as R'.
  assert (Erd : b_wbuf b = [] -> reader_tell b = (Ok p, set_world b w')).
  { intros W. unfold reader_tell, bind. rewrite E. cbn [set_world b_rbuf b_rpos].
    destruct (rep_flat _ _ _ _ _ _ R W) as [_ Ho]. rewrite unread_len in Ho by apply (rp_rpos _ _ _ _ _ _ R).
    pose proof (rp_nn _ _ _ _ _ _ R). unfold len in Ho. rewrite Z.max_l by lia. f_equal. f_equal. lia. }
  assert (Ewr : b_rbuf b = [] -> writer_tell b = (Ok p, set_world b w')).
  { intros Er. unfold writer_tell, bind. rewrite E. cbn [set_world b_wbuf].
    pose proof (rp_p _ _ _ _ _ _ R) as X. rewrite Ee in X. rewrite (unread_nil _ Er), len_nil in X. unfold len in X. f_equal. f_equal. lia. }
  exists (set_world b w'). split; [|split; [exact R'|]; split; [exact V|]; auto].
  destruct k; unfold b_tell.
  - apply Erd, (rp_nowr _ _ _ _ _ _ R eq_refl).
  - apply Ewr, (rp_nord _ _ _ _ _ _ R eq_refl).
  - destruct (b_wbuf b) eqn:W; [now apply Erd|]. apply Ewr, (rp_excl _ _ _ _ _ _ R). congruence.
Qed.

(** size() *)
Lemma b_fsize_ok faults k b o i c p : rep k b o i c p -> tameb faults b o ->
  exists r b' o' i', b_fsize k b = (r, b') /\ rep k b' o' i' c p /\ evolves b b' o o' /\ b_rbuf b' = b_rbuf b
    /\ ((r = Ok (len c) /\ n_data i' = c) \/ (faults /\ exists e, r = Err e /\ os_or_block e)).
Proof.
  intros R T. destruct (b_flush_ok faults k b o i c p R T) as (r & b1 & o1 & i1 & E & [R1 V1 Q1 Q2 Q3 Q4]).
  unfold b_fsize, bind. rewrite E. destruct Q4 as [(-> & W)|(F & _ & e & -> & He)].
  - unfold on_raw. rewrite (raw_size_live _ _ _ _ (rp_live _ _ _ _ _ _ R1)). rewrite set_world_same.
    destruct (rep_flat _ _ _ _ _ _ R1 W) as [-> _]. eexists _, _, o1, i1. split; [reflexivity|].
    split; [exact R1|]. split; [exact V1|]. split; [exact Q1|]. left. split; [reflexivity|]. apply (rep_flat _ _ _ _ _ _ R1 W).
  - eexists _, _, o1, i1. split; [reflexivity|]. split; [exact R1|]. split; [exact V1|]. split; [exact Q1|]. right. eauto.
Qed.

(** * seek() *)

(** After a successful seek the stream is a bare raw stream. *)
Lemma rep_bare k b o i c p t w o' : rep k b o i c p -> b_wbuf b = [] ->
  live (b_raw b) w o' i -> sameo o o' -> o_pos o' = t -> 0 <= t ->
  rep k (set_rbuf (set_world b w) [] 0) o' i c t.
Proof.
  intros R W L S Ho Ht. destruct (rep_flat _ _ _ _ _ _ R W) as [Hc _]. destruct R.
  constructor; cbn [set_rbuf set_world b_raw b_w b_size b_rbuf b_rpos b_wbuf]; auto.
  - rewrite W. now rewrite Hc, write_at_nil.
  - rewrite epos_clean by exact W. rewrite W. unfold unread. cbn. lia.
  - unfold unread. cbn. apply slice_nil.
Qed.

(** The raw stream is brought back to the cursor. *)
Lemma undo_ok b1 o1 i1 c p : rep BRandom b1 o1 i1 c p -> b_wbuf b1 = [] ->
  exists w2 o2, (match b_rbuf b1 with [] => (Ok tt, b1) | _ => undo_readahead b1 end) = (Ok tt, set_world b1 w2)
       /\ live (b_raw b1) w2 o2 i1 /\ sameo o1 o2 /\ o_pos o2 = p /\ frame (fd_of (b_raw b1)) (o_uid o1) (b_w b1) w2
       /\ (b_rbuf b1 = [] -> o2 = o1 /\ w2 = b_w b1).
Proof.
  intros R1 W. pose proof (rep_flat _ _ _ _ _ _ R1 W) as [Hc Ho].
  pose proof (rp_live _ _ _ _ _ _ R1) as L. pose proof (rp_nn _ _ _ _ _ _ R1) as Pn.
  destruct (b_rbuf b1) as [|x l] eqn:Er.
  - exists (b_w b1), o1. rewrite set_world_same. split; [reflexivity|]. split; [exact L|]. split; [apply sameo_refl|].
    split; [|split; [apply frame_refl|auto]]. rewrite (unread_nil _ Er), len_nil in Ho. lia.
  - unfold undo_readahead, bind, on_raw. rewrite (raw_seek_live _ _ _ _ _ _ L).
    change (seek_base o1 i1 1) with (Some (o_pos o1)). cbv iota beta.
    rewrite Er. rewrite (unread_len _ (rp_rpos _ _ _ _ _ _ R1)), Er in Ho. unfold len in Ho.
    assert (Eq : o_pos o1 + (Z.of_nat (b_rpos b1) - Z.of_nat (length (x :: l))) = p) by lia. rewrite Eq.
    destruct (Z.ltb_spec p 0); [lia|]. unfold ret. eexists _, _. split; [reflexivity|].
    split; [now apply live_pos|]. split; [apply sameo_pos|]. split; [reflexivity|]. split; [apply frame_fd|discriminate].
Qed.

Definition seek_outcome (faults : Prop) (k : bkind) (b : bstate) (c : list Z) (p off wh : Z) (r : res Z) (b' : bstate) (o' : ofd) (i' : inode) : Prop :=
  (exists t, seek_target c p off wh = Some t /\ 0 <= t /\ r = Ok t /\ rep k b' o' i' c t /\ b_rbuf b' = [] /\ b_wbuf b' = [])
  \/ (exists t, seek_target c p off wh = Some t /\ t < 0 /\ r = Err (EOS EINVAL)
        /\ ((k = BRandom -> b_rbuf b = []) -> rep k b' o' i' c p /\ b_rbuf b' = b_rbuf b))
  \/ (seek_target c p off wh = None /\ r = Err EValue /\ rep k b' o' i' c p /\ b_rbuf b' = b_rbuf b)
  \/ (faults /\ (exists e, r = Err e /\ os_or_block e) /\ rep k b' o' i' c p /\ b_rbuf b' = b_rbuf b).

Lemma valid_whence_target c p off wh : valid_whence wh = false -> seek_target c p off wh = None.
Proof.
  unfold valid_whence, seek_target. intros H. apply orb_false_iff in H as [H H2]. apply orb_false_iff in H as [H0 H1].
  now rewrite H0, H1, H2.
Qed.

Lemma b_seek_ok faults k b o i c p off wh : rep k b o i c p -> tameb faults b o ->
  exists r b' o' i', b_seek k off wh b = (r, b') /\ evolves b b' o o' /\ seek_outcome faults k b c p off wh r b' o' i'.
Proof.
  intros R T. unfold b_seek. destruct (valid_whence wh) eqn:Vw; cbn [negb].
  2:{ exists (Err EValue), b, o, i. split; [reflexivity|]. split; [auto with frame|]. right. right. left.
      rewrite (valid_whence_target _ _ _ _ Vw). auto. }
  destruct k.
  - (* reader *)
    unfold bind at 1. rewrite (check_closed_rep _ _ _ _ _ _ R).
    pose proof (rp_nowr _ _ _ _ _ _ R eq_refl) as W. pose proof (rep_flat _ _ _ _ _ _ R W) as [Hc Ho].
    pose proof (rp_live _ _ _ _ _ _ R) as L. pose proof (len_nonneg (unread b)) as Lu.
    unfold mixin_seek, bind, on_raw. rewrite (raw_seek_live _ _ _ _ _ _ L).
    set (q := if wh =? 1 then off - Z.of_nat (length (unread b)) else off).
    assert (St : exists base, seek_base o i wh = Some base /\ seek_target c p off wh = Some (base + q)).
    { unfold seek_base, seek_target, valid_whence, q in *. rewrite Ho, Hc. fold (len (unread b)).
      destruct (Z.eqb_spec wh 0) as [-> |]; [cbn; eexists; split; [reflexivity|f_equal; lia]|].
      destruct (Z.eqb_spec wh 1); [eexists; split; [reflexivity|f_equal; lia]|].
      destruct (Z.eqb_spec wh 2); [|discriminate]. eexists; split; [reflexivity|f_equal; lia]. }
    destruct St as (base & -> & St).
    destruct (Z.ltb_spec (base + q) 0) as [Hneg|Hpos].
    + rewrite set_world_same. eexists _, _, o, i. split; [reflexivity|]. split; [auto with frame|]. right. left. eauto 6.
    + destruct (Z.ltb_spec (base + q) 0); [lia|]. unfold reset_read_buf, ret.
      eexists _, _, (set_pos o (base + q)), i. split; [reflexivity|].
      split. { eapply evolves_trans; [apply evolves_world; [apply sameo_pos|apply frame_fd]|apply evolves_rbuf, sameo_refl]. }
      left. exists (base + q). split; [exact St|]. split; [lia|]. split; [reflexivity|]. split; [|auto].
      eapply rep_bare; eauto with frame. now apply live_pos.
  - (* writer *)
    unfold bind at 1.
    destruct (flush_ok faults BWriter b o i c p R T) as (r & b1 & o1 & i1 & -> & [R1 V1 Q1 Q2 _ [(-> & W)|(F & _ & e & -> & He)]]).
    2:{ eexists _, _, o1, i1. split; [reflexivity|]. split; [exact V1|]. right. right. right. eauto 6. }
    pose proof (rep_flat _ _ _ _ _ _ R1 W) as [Hc Ho]. pose proof (rp_nord _ _ _ _ _ _ R1 eq_refl) as Er.
    rewrite (unread_nil _ Er), len_nil, Z.add_0_r in Ho.
    pose proof (rp_live _ _ _ _ _ _ R1) as L. unfold mixin_seek, bind, on_raw. rewrite (raw_seek_live _ _ _ _ _ _ L).
    assert (St : exists base, seek_base o1 i1 wh = Some base /\ seek_target c p off wh = Some (base + off)).
    { unfold seek_base, seek_target, valid_whence in *. rewrite Ho, Hc.
      destruct (Z.eqb_spec wh 0); [cbn; eauto|]. destruct (Z.eqb_spec wh 1); [eauto|].
      destruct (Z.eqb_spec wh 2); [eauto|discriminate]. }
    destruct St as (base & -> & St).
    destruct (Z.ltb_spec (base + off) 0) as [Hneg|Hpos].
    + rewrite set_world_same. eexists _, _, o1, i1. split; [reflexivity|]. split; [exact V1|]. right. left. eauto 7.
    + destruct (Z.ltb_spec (base + off) 0); [lia|]. unfold ret.
      eexists _, _, (set_pos o1 (base + off)), i1. split; [reflexivity|].
      split. { eapply evolves_trans; [exact V1|]. apply evolves_world; [apply sameo_pos|apply frame_fd]. }
      left. exists (base + off). split; [exact St|]. split; [lia|]. split; [reflexivity|]. split; [|auto].
      match goal with |- rep _ (set_world _ ?w) _ _ _ _ => 
        pose proof (rep_bare BWriter b1 o1 i1 c p (base + off) w (set_pos o1 (base + off)) R1 W (live_pos _ _ _ _ _ L Hpos) (sameo_pos _ _) eq_refl Hpos) as X end.
      pose proof (rp_rpos _ _ _ _ _ _ R1) as Rp.
      destruct X. constructor; auto; cbn [set_world b_rbuf b_rpos b_wbuf b_raw b_w b_size] in *.
      * change (unread (set_world b1 _)) with (unread b1). rewrite epos_clean by exact W. rewrite (unread_nil _ Er), W, len_nil. cbn. lia.
      * change (unread (set_world b1 _)) with (unread b1). rewrite (unread_nil _ Er). apply slice_nil.
  - (* both *)
    unfold bind at 1.
    destruct (flush_ok faults BRandom b o i c p R T) as (r & b1 & o1 & i1 & -> & [R1 V1 Q1 Q2 _ [(-> & W)|(F & _ & e & -> & He)]]).
    2:{ eexists _, _, o1, i1. split; [reflexivity|]. split; [exact V1|]. right. right. right. eauto 6. }
    pose proof (rep_flat _ _ _ _ _ _ R1 W) as [Hc Ho].
    pose proof (rp_live _ _ _ _ _ _ R1) as L. pose proof (rp_nn _ _ _ _ _ _ R1) as Pn.
    destruct (undo_ok _ _ _ _ _ R1 W) as (w2 & o2 & E2 & L2 & S2 & P2 & F2 & N2).
    unfold bind at 1. rewrite E2. unfold bind at 1, on_raw. cbn [set_world b_raw b_w].
    rewrite (raw_seek_live _ _ _ _ _ _ L2).
    assert (V2 : evolves b (set_world b1 w2) o o2) by (eapply evolves_trans; [exact V1|now apply evolves_world]).
    assert (St : exists base, seek_base o2 i1 wh = Some base /\ seek_target c p off wh = Some (base + off)).
    { unfold seek_base, seek_target, valid_whence in *. rewrite P2, Hc.
      destruct (Z.eqb_spec wh 0); [cbn; eauto|]. destruct (Z.eqb_spec wh 1); [eauto|].
      destruct (Z.eqb_spec wh 2); [eauto|discriminate]. }
    destruct St as (base & -> & St).
    destruct (Z.ltb_spec (base + off) 0) as [Hneg|Hpos].
    + eexists _, _, o2, i1. split; [reflexivity|]. split; [exact V2|]. right. left. exists (base + off).
      split; [exact St|]. split; [lia|]. split; [reflexivity|]. intros Cl. specialize (Cl eq_refl).
      rewrite <- Q1 in Cl. destruct (N2 Cl) as [-> ->].
      split; [|cbn; exact Q1]. change (set_world (set_world b1 (b_w b1)) (b_w b1)) with (set_world b1 (b_w b1)).
      now rewrite set_world_same.
    + unfold reset_read_buf, bind, ret. destruct (Z.ltb_spec (base + off) 0); [lia|].
      eexists _, _, (set_pos o2 (base + off)), i1. split; [reflexivity|].
      split. { eapply evolves_trans; [exact V2|]. eapply evolves_trans; [apply evolves_world; [apply sameo_pos|apply frame_fd]|apply evolves_rbuf, sameo_refl]. }
      left. exists (base + off). split; [exact St|]. split; [lia|]. split; [reflexivity|]. split; [|split; [reflexivity|exact W]].
      match goal with |- rep _ (set_rbuf (set_world (set_world _ _) ?w) _ _) _ _ _ _ => change (rep BRandom (set_rbuf (set_world b1 w) [] 0) (set_pos o2 (base + off)) i1 c (base + off)) end.
      eapply rep_bare; [exact R1|exact W| |eapply sameo_trans; [exact S2|apply sameo_pos]|reflexivity|lia].
      now apply (live_pos (b_raw b1) w2).
Qed.

(** * write() *)

Lemma b_write_ok faults k b o i c p d : rep k b o i c p -> tameb faults b o -> can_write k = true ->
  exists r b' o' i' c' p', b_write k d b = (r, b') /\ rep k b' o' i' c' p' /\ evolves b b' o o'
    /\ b_rbuf b' = [] /\ written faults (o_app o) c p d r c' p'
    /\ (o_app o = true -> lagof b' o' i' = 0 \/ lagof b' o' i' = lagof b o i + shift c p d \/ (r <> Ok (len d) /\ lagof b' o' i' = lagof b o i)).
Proof.
  intros R T K. destruct k; [discriminate| |].
  - apply (writer_write_ok _ _ _ _ i); auto. apply (rp_nord _ _ _ _ _ _ R eq_refl).
  - unfold b_write. unfold bind at 1. destruct (b_rbuf b) as [|x l] eqn:Er.
    + now apply (writer_write_ok _ _ _ _ i).
    + assert (W : b_wbuf b = []).
      { destruct (b_wbuf b) eqn:Ew; auto. pose proof (rp_excl _ _ _ _ _ _ R ltac:(congruence)). congruence. }
      destruct (undo_ok _ _ _ _ _ R W) as (w2 & o2 & E2 & L2 & S2 & P2 & F2 & N2). rewrite Er in E2.
      unfold bind at 1. rewrite E2. unfold reset_read_buf.
      assert (R2 : rep BRandom (set_rbuf (set_world b w2) [] 0) o2 i c p).
      { eapply rep_bare; eauto. apply (rp_nn _ _ _ _ _ _ R). }
      assert (V2 : evolves b (set_rbuf (set_world b w2) [] 0) o o2).
      { eapply evolves_trans; [apply evolves_world; eauto|apply evolves_rbuf, sameo_refl]. }
      destruct (writer_write_ok faults BRandom _ _ _ _ _ d R2 (tameb_evolves _ _ _ _ _ V2 T) eq_refl eq_refl)
        as (r & b' & o' & i' & c' & p' & E & R' & V' & X).
      exists r, b', o', i', c', p'. split; [exact E|]. split; [exact R'|]. split; [eapply evolves_trans; eauto|]. rewrite (so_app _ _ S2) in X.
      assert (lagof b o i = lagof (set_rbuf (set_world b w2) [] 0) o2 i) as ->; [|exact X].
      unfold lagof. rewrite !epos_clean by exact W. lia.
Qed.

(** * truncate() *)

Definition trunc_outcome (faults : Prop) (k : bkind) (c : list Z) (p : Z) (s : option Z) (r : res Z) (b' : bstate) (o' : ofd) (i' : inode) : Prop :=
  let n := match s with None => p | Some x => x end in
  (0 <= n /\ r = Ok n /\ rep k b' o' i' (set_size c (Z.to_nat n)) p)
  \/ (n < 0 /\ r = Err (EOS EINVAL) /\ rep k b' o' i' c p)
  \/ (faults /\ (exists e, r = Err e /\ os_or_block e) /\ rep k b' o' i' c p).

Lemma writer_truncate_ok faults k b o i c p s : rep k b o i c p -> tameb faults b o -> can_write k = true -> b_rbuf b = [] ->
  exists r b' o' i', writer_truncate s b = (r, b') /\ evolves b b' o o' /\ b_rbuf b' = []
    /\ trunc_outcome faults k c p s r b' o' i'.
Proof.
  intros R T K Er. unfold writer_truncate. unfold bind at 1.
  destruct (flush_ok faults k b o i c p R T) as (r & b1 & o1 & i1 & -> & [R1 V1 Q1 Q2 _ [(-> & W)|(F & _ & e & -> & He)]]).
  2:{ eexists _, _, o1, i1. split; [reflexivity|]. split; [exact V1|]. split; [congruence|]. right. right. eauto. }
  rewrite Er in Q1. pose proof (rep_flat _ _ _ _ _ _ R1 W) as [Hc Ho]. rewrite (unread_nil _ Q1), len_nil, Z.add_0_r in Ho.
  pose proof (rp_wr _ _ _ _ _ _ R1 K) as Wf. pose proof (rp_nn _ _ _ _ _ _ R1) as Pn.
  set (n := match s with None => p | Some x => x end).
  assert (Pos : exists w2, (match s with None => on_raw raw_tell | Some p => ret p end) b1 = (Ok n, set_world b1 w2)
            /\ live (b_raw b1) w2 o1 i1 /\ frame (fd_of (b_raw b1)) (o_uid o1) (b_w b1) w2).
  { destruct s as [x|].
    - exists (b_w b1). rewrite set_world_same. split; [reflexivity|]. split; [apply (rp_live _ _ _ _ _ _ R1)|apply frame_refl].
    - unfold on_raw. rewrite (raw_tell_live _ _ _ _ (rp_live _ _ _ _ _ _ R1)). eexists.
      split; [unfold n; rewrite <- Ho; reflexivity|]. split; [apply live_refd, (rp_live _ _ _ _ _ _ R1)|apply frame_fd]. }
  destruct Pos as (w2 & Ep & L2 & F2). unfold bind at 1. rewrite Ep. unfold on_raw. cbn [set_world b_raw b_w].
  rewrite (raw_truncate_eq _ _ _ _ (Some n) L2 Wf).
  assert (V2 : evolves b (set_world b1 w2) o o1) by (eapply evolves_trans; [exact V1|apply evolves_world; auto with frame]).
  pose proof (rep_world _ _ _ _ _ _ w2 R1 L2) as R2.
  destruct (Z.ltb_spec n 0) as [Hneg|Hn].
  { eexists _, _, o1, i1. split; [reflexivity|]. split; [exact V2|]. split; [exact Q1|]. right. left. fold n. auto. }
  destruct (truncate_body_live _ _ _ _ n L2 Hn) as (r & w3 & -> & F3 & C3).
  assert (V3 : evolves b (set_world b1 w3) o o1).
  { eapply evolves_trans; [exact V1|apply evolves_world; auto with frame]. eapply frame_trans; eauto. }
  destruct C3 as [(-> & i3 & L3 & D3 & _)|(Flt & (e & ->) & L3)].
  - eexists _, _, o1, i3. split; [reflexivity|]. split; [exact V3|]. split; [exact Q1|]. left. fold n. split; [lia|]. split; [reflexivity|].
    destruct R1. constructor; cbn [set_world b_raw b_w b_size b_rbuf b_rpos b_wbuf]; auto.
    + now rewrite W, D3, Hc, !write_at_nil.
    + rewrite rp_p. now rewrite !epos_clean by exact W.
    + rewrite (unread_nil (set_world (set_world b1 w2) w3) Q1). apply slice_nil.
  - eexists _, _, o1, i1. split; [reflexivity|]. split; [exact V3|]. split; [exact Q1|]. right. right. fold n.
    split; [|split; [exists (EOS e); split; [reflexivity|left; eauto]|now apply rep_world]].
    pose proof (tameb_evolves _ _ _ _ _ V2 T) as [F|(T1 & _ & T3)]; [exact F|exfalso]. cbn [set_world b_raw b_w] in *.
    destruct Flt as [X|(x & X)]; [rewrite T3 in X; auto; discriminate|].
    apply (T1 x). destruct (w_io w2); cbn in *; [discriminate|now left].
Qed.

Lemma b_truncate_ok faults k b o i c p s : rep k b o i c p -> (k = BRandom -> s = None -> epos b o i = o_pos o) -> tameb faults b o -> can_write k = true -> b_rbuf b = [] ->
  exists r b' o' i', b_truncate k s b = (r, b') /\ evolves b b' o o' /\ b_rbuf b' = []
    /\ trunc_outcome faults k c p s r b' o' i'.
Proof.
  intros R Ee T K Er. destruct k; [discriminate|now apply (writer_truncate_ok _ _ _ _ i)|].
  unfold b_truncate. unfold bind. destruct s as [x|].
  - now apply (writer_truncate_ok _ _ _ _ i _ _ (Some x)).
  - destruct (b_tell_ok _ _ _ _ _ _ R (Ee eq_refl eq_refl)) as (b1 & -> & R1 & V1 & Q1 & Q2 & Q3).
    destruct (writer_truncate_ok faults BRandom b1 o i c p (Some p) R1 (tameb_evolves _ _ _ _ _ V1 T) K ltac:(congruence))
      as (r & b' & o' & i' & E & V & X).
    exists r, b', o', i'. split; [exact E|]. split; [eapply evolves_trans; eauto|exact X].
Qed.

(** * Reading (no failures scheduled) *)

Definition reads (k : bkind) (c : list Z) (p : Z) (good : list Z -> Prop) (r : res (option (list Z))) (b' : bstate) (o' : ofd) (i' : inode) : Prop :=
  exists d, r = Ok (Some d) /\ good d /\ slice_at c p d /\ rep k b' o' i' c (p + len d) /\ b_wbuf b' = [].

Lemma got_reads k b' o' i c p r good : got False k b' o' i c p r good -> b_wbuf b' = [] ->
  reads k c p good r b' o' i.
Proof. intros [(d & R & S & [[-> [G|[]]]|[[] _]])|[[] _]] W. exists d. auto. Qed.

Lemma no_epipe_evolves b b' o o' : evolves b b' o o' -> no_epipe (b_w b) -> no_epipe (b_w b').
Proof. intros E H X. apply H. apply (fr_io _ _ _ _ (ev_frame _ _ _ _ E)), X. Qed.

(** The flush that BufferedRandom does before reading. *)
Lemma preflush k b o i c p {A} (m : B A) : rep k b o i c p -> tameb False b o -> can_read k = true ->
  exists b1 o1 i1, (match k with BRandom => flush_unlocked ;; m | _ => m end) b = m b1
    /\ rep k b1 o1 i1 c p /\ evolves b b1 o o1 /\ b_wbuf b1 = [].
Proof.
  intros R T K. destruct k; [|discriminate|].
  - exists b, o, i. split; [reflexivity|]. split; [exact R|]. split; [auto with frame|]. apply (rp_nowr _ _ _ _ _ _ R eq_refl).
  - destruct (flush_ok False BRandom b o i c p R T) as (r & b1 & o1 & i1 & E & [R1 V1 _ _ _ [(-> & W)|([] & _)]]).
    exists b1, o1, i1. unfold bind. rewrite E. auto.
Qed.

Definition read_good (n : option Z) (c : list Z) (p : Z) (d : list Z) : Prop :=
  match n with
  | None => rest_from c p d
  | Some n => if n =? -1 then rest_from c p d else len d = Z.min n (Z.max 0 (len c - p))
  end.
Definition read_ok (n : option Z) : Prop := match n with None => True | Some n => -1 <= n end.

Lemma reader_read_ok k b o i c p n : rep k b o i c p -> tameb False b o -> no_epipe (b_w b) -> can_read k = true ->
  b_wbuf b = [] -> read_ok n ->
  exists r b' o', reader_read n b = (r, b') /\ evolves b b' o o' /\ reads k c p (read_good n c p) r b' o' i.
Proof.
  intros R T Hp K W Hn. unfold reader_read. destruct n as [n|]; cbn [read_good read_ok] in *.
  - destruct (Z.ltb_spec n (-1)); [lia|]. destruct (Z.eqb_spec n (-1)) as [-> |].
    + destruct (read_all_ok False k b o i c p R T Hp K W (Some (-1)) ltac:(auto)) as (r & b' & o' & E & V & W' & G).
      exists r, b', o'. split; [exact E|]. split; [exact V|]. now apply got_reads.
    + destruct (read_n_ok False k b o i c p n R T Hp K W ltac:(lia)) as (r & b' & o' & E & V & W' & G).
      exists r, b', o'. split; [exact E|]. split; [exact V|].
      apply got_reads in G as (d & -> & G1 & G2 & G3 & _); auto. exists d. split; [reflexivity|]. split; [|auto].
      unfold read_good. destruct (Z.eqb_spec n (-1)); [lia|exact G1].
  - destruct (read_all_ok False k b o i c p R T Hp K W None ltac:(auto)) as (r & b' & o' & E & V & W' & G).
    exists r, b', o'. split; [exact E|]. split; [exact V|]. now apply got_reads.
Qed.

Lemma b_read_ok k b o i c p n : rep k b o i c p -> tameb False b o -> no_epipe (b_w b) -> can_read k = true -> read_ok n ->
  exists r b' o' i', b_read k n b = (r, b') /\ evolves b b' o o' /\ reads k c p (read_good n c p) r b' o' i'.
Proof.
  intros R T Hp K Hn. 
  set (n' := match k with BRandom => Some (match n with None => -1 | Some z => z end) | _ => n end).
  assert (E0 : b_read k n b = (match k with BRandom => flush_unlocked ;; reader_read n' | _ => reader_read n' end) b).
  { destruct k; [reflexivity|discriminate|reflexivity]. }
  destruct (preflush k b o i c p (reader_read n') R T K) as (b1 & o1 & i1 & E1 & R1 & V1 & W1).
  assert (Hn' : read_ok n') by (destruct k, n; cbn in *; auto; lia).
  destruct (reader_read_ok k b1 o1 i1 c p n' R1 (tameb_evolves _ _ _ _ _ V1 T) (no_epipe_evolves _ _ _ _ V1 Hp) K W1 Hn')
    as (r & b' & o' & E2 & V2 & X).
  exists r, b', o', i1. split; [now rewrite E0, E1|]. split; [eapply evolves_trans; eauto|].
  destruct k; auto. unfold n' in X. destruct n; exact X.
Qed.

(** peek: the read buffer is topped up by at most one raw read. *)
Lemma peek_ok k b o i c p n : rep k b o i c p -> tameb False b o -> no_epipe (b_w b) -> can_read k = true -> b_wbuf b = [] ->
  exists d b' o', peek_unlocked n b = (Ok d, b') /\ evolves b b' o o' /\ rep k b' o' i c p /\ b_wbuf b' = []
    /\ d = unread b' /\ (d = [] -> len c <= p).
Proof.
  intros R T Hp K W. pose proof (rep_flat _ _ _ _ _ _ R W) as [Hc Ho].
  pose proof (rp_live _ _ _ _ _ _ R) as L. pose proof (rp_rd _ _ _ _ _ _ R K) as Rf.
  pose proof (rp_nn _ _ _ _ _ _ R) as Pn. pose proof (len_nonneg (unread b)) as Lu.
  pose proof (rp_slice _ _ _ _ _ _ R) as Sl. pose proof (rp_size _ _ _ _ _ _ R) as Bs.
  unfold peek_unlocked. unfold bind at 1. fold (len (unread b)).
  destruct ((len (unread b) <? Z.min n (b_size b)) || (len (unread b) <=? 0)) eqn:Ec.
  2:{ exists (unread b), b, o. split; [reflexivity|]. split; [auto with frame|]. split; [exact R|]. split; [exact W|]. split; [reflexivity|].
      intros X. rewrite X in Ec. change (@len Z []) with 0 in Ec. change (0 <=? 0) with true in Ec. now rewrite orb_true_r in Ec. }
  assert (Lt : 0 < b_size b - len (unread b)).
  { apply orb_true_iff in Ec as [Ec|Ec]; [apply Z.ltb_lt in Ec; lia|apply Z.leb_le in Ec; lia]. }
  unfold bind at 1, on_raw.
  destruct (raw_read_cases False _ _ o i (b_size b - len (unread b)) L ltac:(lia) Hp (tame_tame_rd _ _ _ _ T) Rf)
    as (r & w1 & -> & [(d & -> & Hd1 & Hd2 & Hd3 & ->)|([] & _)]).
  pose proof (lv_pos _ _ _ _ L) as P0. pose proof (len_nonneg d) as Ld.
  set (w1 := upd_fd _ _ _). set (o1 := set_pos o (o_pos o + len d)).
  assert (L1 : live (b_raw b) w1 o1 i) by (unfold w1, o1; apply live_pos; [now apply live_io|lia]).
  assert (V1 : evolves b (set_world b w1) o o1).
  { apply evolves_world; [apply sameo_pos|]. eapply frame_trans; [apply frame_io|apply frame_fd]. }
  rewrite Hc in Hd2, Hd3.
  destruct d as [|x d].
  - assert (Eof : len c <= o_pos o) by (destruct (Hd3 eq_refl); [lia|auto]).
    exists (unread b), (set_world b w1), o1. split; [reflexivity|]. split; [exact V1|].
    split. { destruct R. constructor; cbn [set_world b_raw b_w b_size b_rbuf b_rpos b_wbuf]; auto.
      - now rewrite W, !write_at_nil.
      - rewrite epos_clean by exact W. rewrite (epos_clean _ _ _ W) in rp_p. unfold o1. cbn [o_pos set_pos]. change (unread (set_world b w1)) with (unread b). rewrite rp_p. rewrite len_nil. lia. }
    split; [exact W|]. split; [reflexivity|]. intros X. rewrite X, len_nil in Ho. lia.
  - set (d1 := x :: d) in *. exists (unread b ++ d1), (set_rbuf (set_world b w1) (unread b ++ d1) 0), o1.
    split; [reflexivity|]. split; [eapply evolves_trans; [exact V1|apply evolves_rbuf, sameo_refl]|].
    split; [|split; [exact W|split; [reflexivity|]]].
    + pose proof (rp_wr _ _ _ _ _ _ R) as Wr.
      apply rep_rbuf; cbn [set_world b_raw b_w b_wbuf b_size]; auto.
      * unfold o1. cbn [o_pos set_pos]. rewrite len_app. lia.
      * apply slice_app; auto. now rewrite <- Ho.
    + intros X. apply app_eq_nil in X as [_ X]. discriminate.
Qed.

Lemma b_peek_ok k b o i c p n : rep k b o i c p -> tameb False b o -> no_epipe (b_w b) -> can_read k = true ->
  exists d b' o' i', b_peek k n b = (Ok d, b') /\ evolves b b' o o' /\ rep k b' o' i' c p /\ b_wbuf b' = []
    /\ slice_at c p d /\ (d = [] -> len c <= p).
Proof.
  intros R T Hp K.
  assert (E0 : b_peek k n b = (match k with BRandom => flush_unlocked ;; reader_peek n | _ => reader_peek n end) b).
  { destruct k; [reflexivity|discriminate|reflexivity]. }
  destruct (preflush k b o i c p (reader_peek n) R T K) as (b1 & o1 & i1 & E1 & R1 & V1 & W1).
  destruct (peek_ok k b1 o1 i1 c p n R1 (tameb_evolves _ _ _ _ _ V1 T) (no_epipe_evolves _ _ _ _ V1 Hp) K W1)
    as (d & b' & o' & E2 & V2 & R2 & W2 & -> & X).
  exists (unread b'), b', o', i1. split. { rewrite E0, E1. unfold reader_peek, bind. now rewrite (check_closed_rep _ _ _ _ _ _ R1). }
  split; [eapply evolves_trans; eauto|]. split; [exact R2|]. split; [exact W2|]. split; [apply (rp_slice _ _ _ _ _ _ R2)|exact X].
Qed.

Definition read1_good (n : Z) (c : list Z) (p : Z) (d : list Z) : Prop :=
  (0 <= n -> len d <= n) /\ (d = [] -> n = 0 \/ len c <= p).

Lemma reader_read1_ok k b o i c p n : rep k b o i c p -> tameb False b o -> no_epipe (b_w b) -> can_read k = true -> b_wbuf b = [] ->
  exists r b' o', reader_read1 n b = (r, b') /\ evolves b b' o o' /\ reads k c p (read1_good n c p) r b' o' i.
Proof.
  intros R T Hp K W. unfold reader_read1. unfold bind at 1. rewrite (check_closed_rep _ _ _ _ _ _ R).
  pose proof (rp_size _ _ _ _ _ _ R) as Bs. pose proof (rp_nn _ _ _ _ _ _ R) as Pn.
  set (m := if n <? 0 then b_size b else n).
  assert (Hm : 0 <= m /\ (0 <= n -> m = n) /\ (m = 0 -> n = 0)).
  { unfold m. destruct (Z.ltb_spec n 0); repeat split; lia. }
  destruct Hm as (Hm0 & Hm1 & Hm2).
  destruct (Z.eqb_spec m 0) as [E0|Hm].
  { exists (Ok (Some [])), b, o. split; [reflexivity|]. split; [auto with frame|]. exists []. split; [reflexivity|].
    assert (L0 : @len Z [] = 0) by reflexivity. rewrite L0, Z.add_0_r. split; [split; [lia|auto]|]. split; [apply slice_nil|auto]. }
  unfold bind. destruct (peek_ok k b o i c p 1 R T Hp K W) as (d & b1 & o1 & -> & V1 & R1 & W1 & -> & Hd).
  set (q := Z.min m (Z.of_nat (length (unread b1)))).
  destruct (read_n_ok False k b1 o1 i c p q R1 (tameb_evolves _ _ _ _ _ V1 T) (no_epipe_evolves _ _ _ _ V1 Hp) K W1 ltac:(unfold q; lia))
    as (r & b' & o' & E2 & V2 & W2 & G).
  exists r, b', o'. split; [exact E2|]. split; [eapply evolves_trans; eauto|].
  apply got_reads in G as (x & -> & Gx & Sx & Rx & Wx); auto.
  exists x. split; [reflexivity|]. split; [|auto]. fold (len (unread b1)) in q.
  pose proof (slice_max _ _ _ Pn (rp_slice _ _ _ _ _ _ R1)) as Mx. pose proof (len_nonneg (unread b1)).
  split; [intros Hn; specialize (Hm1 Hn); lia|]. intros ->. rewrite len_nil in Gx.
  right. destruct (Z.leb_spec (len c) p); auto. apply Hd. destruct (unread b1) as [|z l] eqn:Eu; auto. exfalso. pose proof (len_nonneg l). unfold q in Gx. rewrite len_cons in *. clearbody m. lia.
Qed.

Lemma b_read1_ok k b o i c p n : rep k b o i c p -> tameb False b o -> no_epipe (b_w b) -> can_read k = true ->
  exists r b' o' i', b_read1 k n b = (r, b') /\ evolves b b' o o' /\ reads k c p (read1_good n c p) r b' o' i'.
Proof.
  intros R T Hp K.
  assert (E0 : b_read1 k n b = (match k with BRandom => flush_unlocked ;; reader_read1 n | _ => reader_read1 n end) b).
  { destruct k; [reflexivity|discriminate|reflexivity]. }
  destruct (preflush k b o i c p (reader_read1 n) R T K) as (b1 & o1 & i1 & E1 & R1 & V1 & W1).
  destruct (reader_read1_ok k b1 o1 i1 c p n R1 (tameb_evolves _ _ _ _ _ V1 T) (no_epipe_evolves _ _ _ _ V1 Hp) K W1)
    as (r & b' & o' & E2 & V2 & X).
  exists r, b', o', i1. split; [now rewrite E0, E1|]. split; [eapply evolves_trans; eauto|exact X].
Qed.
