(** Refinement of the buffered streams (C31, C32). *)
From Coq Require Import ZArith Ascii String List Bool Lia.
From Verif Require Import M_Base M_Modes M_Registry M_Kernel M_World M_Raw M_Buffered S_Bytes S_Raw S_Buffered
  P_Bytes P_Raw.
Import ListNotations.
Open Scope Z_scope.

(** The descriptions before and after differ by the position only. *)
Record sameo (o o' : ofd) : Prop := mkSameo {
  so_uid : o_uid o' = o_uid o; so_rd : o_rd o' = o_rd o; so_wr : o_wr o' = o_wr o;
  so_app : o_app o' = o_app o; so_sync : o_sync o' = o_sync o }.
Lemma sameo_refl o : sameo o o.
Proof. constructor; reflexivity. Qed.
Lemma sameo_trans a b c : sameo a b -> sameo b c -> sameo a c.
Proof. intros [] []. constructor; congruence. Qed.
Lemma sameo_pos o p : sameo o (set_pos o p).
Proof. constructor; reflexivity. Qed.
#[export] Hint Resolve sameo_refl sameo_pos : frame.

Definition can_read (k : bkind) : bool := match k with BWriter => false | _ => true end.
Definition can_write (k : bkind) : bool := match k with BReader => false | _ => true end.

(** Where the bytes in the write buffer will go. *)
Definition epos (b : bstate) (o : ofd) (i : inode) : Z :=
  match b_wbuf b with [] => o_pos o | _ => write_pos o i end.
(** By how much tell() falls behind. *)
Definition lagof (b : bstate) (o : ofd) (i : inode) : Z := epos b o i - o_pos o.
(** The stream [b] stands for content [c] and cursor [p]. *)
Record rep (k : bkind) (b : bstate) (o : ofd) (i : inode) (c : list Z) (p : Z) : Prop := mkRep {
  rp_live : live (b_raw b) (b_w b) o i;
  rp_size : 0 < b_size b;
  rp_rd : can_read k = true -> f_readable (b_raw b) = true;
  rp_wr : can_write k = true -> f_writable (b_raw b) = true;
  rp_rpos : (b_rpos b <= length (b_rbuf b))%nat;
  rp_excl : b_wbuf b <> [] -> b_rbuf b = [];
  rp_nord : can_read k = false -> b_rbuf b = [];
  rp_nowr : can_write k = false -> b_wbuf b = [];
  rp_c : c = write_at (n_data i) (Z.to_nat (epos b o i)) (b_wbuf b);
  rp_p : p = epos b o i + len (b_wbuf b) - len (unread b);
  rp_nn : 0 <= p;
  rp_slice : slice_at c p (unread b) }.

(** What never changes. *)
Record evolves (b b' : bstate) (o o' : ofd) : Prop := mkEvo {
  ev_raw : b_raw b' = b_raw b; ev_size : b_size b' = b_size b; ev_o : sameo o o';
  ev_frame : frame (fd_of (b_raw b)) (o_uid o) (b_w b) (b_w b') }.
Lemma evolves_refl b o : evolves b b o o.
Proof. constructor; auto with frame. Qed.
Lemma evolves_trans a b c o1 o2 o3 : evolves a b o1 o2 -> evolves b c o2 o3 -> evolves a c o1 o3.
Proof.
  intros [] []. constructor; [congruence|congruence|eapply sameo_trans; eauto|].
  eapply frame_trans; eauto. rewrite <- ev_raw0, <- (so_uid _ _ ev_o0). auto.
Qed.
#[export] Hint Resolve evolves_refl : frame.
Lemma evolves_world b w o o' : sameo o o' -> frame (fd_of (b_raw b)) (o_uid o) (b_w b) w -> evolves b (set_world b w) o o'.
Proof. constructor; auto. Qed.

Definition tameb (faults : Prop) (b : bstate) (o : ofd) : Prop := tame faults (b_raw b) (b_w b) o.
Lemma tameb_evolves faults b b' o o' : evolves b b' o o' -> tameb faults b o -> tameb faults b' o'.
Proof.
  intros [] T. unfold tameb. rewrite ev_raw0. eapply tame_io; eauto; [apply ev_frame0|apply ev_o0|apply ev_o0].
Qed.

(** * Flushing *)

Lemma slice_nil c p : slice_at c p [].
Proof. split; [now left|]. intros i H. cbn in H. lia. Qed.

Lemma skipn_len {A} (l : list A) : skipn (length l) l = [].
Proof. apply skipn_all. Qed.

Lemma write_bytes_split e b : b = write_bytes e b ++ skipn (Z.to_nat (len (write_bytes e b))) b.
Proof. rewrite write_bytes_prefix at 1. now rewrite firstn_skipn. Qed.

Lemma epos_pending b o i : b_wbuf b <> [] -> epos b o i = write_pos o i.
Proof. unfold epos. destruct (b_wbuf b); congruence. Qed.
Lemma epos_clean b o i : b_wbuf b = [] -> epos b o i = o_pos o.
Proof. unfold epos. now intros ->. Qed.
Lemma epos_plain b o i : o_app o = false -> epos b o i = o_pos o.
Proof. unfold epos, write_pos. intros ->. now destruct (b_wbuf b). Qed.
Lemma write_pos_nn f w o i : live f w o i -> 0 <= write_pos o i.
Proof. intros L. unfold write_pos. pose proof (lv_pos _ _ _ _ L). pose proof (len_nonneg (n_data i)). destruct (o_app o); lia. Qed.
Lemma epos_nn b f w o i : live f w o i -> 0 <= epos b o i.
Proof. intros L. unfold epos. pose proof (write_pos_nn _ _ _ _ L). pose proof (lv_pos _ _ _ _ L). destruct (b_wbuf b); lia. Qed.
Lemma write_at_nil c n : write_at c n [] = c.
Proof. now destruct (write_at_stored c n []) as (X & _); rewrite X. Qed.
(** After a write the position is where the next one goes. *)
Lemma write_pos_next o i d : 0 <= o_pos o ->
  write_pos (set_pos o (write_pos o i + len d)) (write_ino o i d) = write_pos o i + len d.
Proof.
  unfold write_pos, write_ino, write_pos. cbn [o_app set_pos o_pos n_data]. intros H. destruct (o_app o); auto.
  unfold len. rewrite Nat2Z.id, write_at_end, app_length. lia.
Qed.

(** One call of raw.write while flushing. *)
Definition os_or_block (e : exn) : Prop := (exists x, e = EOS x) \/ e = EBlocking 0.

Lemma flush_loop_ok faults k : forall fuel b o i c p, rep k b o i c p -> tameb faults b o ->
  (length (b_wbuf b) < fuel)%nat ->
  exists r b' o' i', flush_loop fuel b = (r, b') /\ rep k b' o' i' c p /\ evolves b b' o o'
    /\ b_rbuf b' = b_rbuf b /\ b_rpos b' = b_rpos b
    /\ (exists d, b_wbuf b = d ++ b_wbuf b' /\ n_data i' = write_at (n_data i) (Z.to_nat (epos b o i)) d
         /\ (lagof b' o' i' = 0 \/ lagof b' o' i' = lagof b o i))
    /\ ( (r = Ok tt /\ b_wbuf b' = [])
       \/ (faults /\ b_wbuf b' <> [] /\ exists e, r = Err e /\ os_or_block e) ).
Proof.
  induction fuel as [|fuel IH]; intros b o i c p R T Hf; [lia|].
  cbn [flush_loop]. destruct (b_wbuf b) as [|x l] eqn:Ew.
  { exists (Ok tt), b, o, i. split; [reflexivity|]. split; [auto|]. split; [auto with frame|].
    split; [auto|]. split; [auto|]. split; [exists []; rewrite write_at_nil; auto|]. left; auto. }
  set (buf := x :: l) in *. assert (Hne : buf <> []) by discriminate. clearbody buf. clear x l.
  assert (K : can_write k = true).
  { destruct (can_write k) eqn:E; auto. pose proof (rp_nowr _ _ _ _ _ _ R E). congruence. }
  pose proof (rp_live _ _ _ _ _ _ R) as L. pose proof (rp_wr _ _ _ _ _ _ R K) as W.
  unfold bind, on_raw at 1.
  destruct (o_wr o) eqn:Wo.
  2:{ (* the descriptor is not writable *)
      assert (F : faults).
      { destruct T as [F | (_ & _ & C)]; auto. rewrite C in Wo; auto; discriminate. }
      assert (raw_write (b_raw b) buf (b_w b) = (Err (EOS EBADF), b_w b)) as ->.
      { unfold raw_write, inner_write, bind.
        rewrite (check_closed_live _ _ _ _ L), (check_writable_live _ _ _ _ L), W.
        now rewrite (sys_write_norights _ _ _ _ _ L Wo). }
      exists (Err (EOS EBADF)), b, o, i. cbv beta iota zeta.
      replace (set_world b (b_w b)) with b by (destruct b; reflexivity).
      split; [reflexivity|]. split; [auto|]. split; [auto with frame|]. split; [auto|]. split; [auto|].
      split; [exists []; rewrite write_at_nil; auto|]. right. split; auto. split; [congruence|]. eexists. split; [reflexivity|]. left; eauto. }
  rewrite (raw_write_live _ _ _ _ buf L W Wo).
  assert (Step : forall e, let wb := write_bytes e buf in
    exists r b' o' i',
      (if (Z.of_nat (length buf) <? len wb) || (len wb <? 0) then (Err (EOS 0), b)
       else flush_loop fuel (mkB (b_raw b) (b_size b) (b_rbuf b) (b_rpos b) (skipn (Z.to_nat (len wb)) (b_wbuf b))
              (upd_fd (upd_ino (set_io (b_w b) (tl (w_io (b_w b)))) (o_uid o) (write_ino o i wb))
                 (fd_of (b_raw b)) (Some (set_pos o (write_pos o i + len wb)))))) = (r, b')
      /\ rep k b' o' i' c p /\ evolves b b' o o'
      /\ b_rbuf b' = b_rbuf b /\ b_rpos b' = b_rpos b
      /\ (exists d, buf = d ++ b_wbuf b' /\ n_data i' = write_at (n_data i) (Z.to_nat (write_pos o i)) d
           /\ (lagof b' o' i' = 0 \/ lagof b' o' i' = lagof b o i))
      /\ ( (r = Ok tt /\ b_wbuf b' = [])
         \/ (faults /\ b_wbuf b' <> [] /\ exists e, r = Err e /\ os_or_block e) )).
  { intros e wb.
    assert (H1 : len wb <= len buf) by apply write_bytes_len.
    assert (H2 : 0 < len wb) by (now apply write_bytes_pos).
    assert (Hn : (Z.of_nat (length buf) <? len wb) || (len wb <? 0) = false).
    { apply orb_false_iff; split; apply Z.ltb_ge; unfold len in *; lia. }
    rewrite Hn. rewrite Ew.
    set (b1 := mkB _ _ _ _ _ _).
    set (o1 := set_pos o (write_pos o i + len wb)). set (i1 := write_ino o i wb).
    assert (P0 : 0 <= write_pos o i) by (apply (write_pos_nn _ _ _ _ L)).
    assert (L1 : live (b_raw b1) (b_w b1) o1 i1).
    { unfold b1, o1; cbn [b_raw b_w]. apply live_pos; [|lia]. apply (live_data _ _ _ i); [|reflexivity]. now apply live_io. }
    assert (Er : b_rbuf b = []) by (apply (rp_excl _ _ _ _ _ _ R); now rewrite Ew).
    assert (Epos : epos b o i = write_pos o i) by (apply epos_pending; now rewrite Ew).
    assert (Epos1 : epos b1 o1 i1 = write_pos o i + len wb) by (unfold epos, o1, i1; rewrite write_pos_next by exact (lv_pos _ _ _ _ L); destruct (b_wbuf b1); reflexivity).
    assert (Un : unread b = []) by (unfold unread; rewrite Er; apply skipn_nil).
    assert (R1 : rep k b1 o1 i1 c p).
    { destruct R. constructor; auto.
      - intros X. congruence.
      - rewrite rp_c0, Epos, Epos1. unfold i1, write_ino, b1. cbn [n_data b_wbuf]. rewrite Ew.
        replace (Z.to_nat (write_pos o i + len wb)) with (Z.to_nat (write_pos o i) + length wb)%nat by (unfold len; lia).
        rewrite (write_bytes_split e buf) at 1. fold wb. rewrite write_at_app. reflexivity.
      - rewrite rp_p0, Ew, Un, Epos, Epos1. unfold b1. cbn [b_wbuf].
        change (unread {| b_raw := _; b_size := _; b_rbuf := _; b_rpos := _; b_wbuf := _; b_w := _ |}) with (unread b).
        rewrite Un, len_skipn, len_nil. lia. }
    destruct (IH b1 o1 i1 c p R1) as (r & b' & o' & i' & E & R' & E' & A1 & A2 & (d & A3 & A5 & A6) & A4).
    - apply (tame_io faults (b_raw b) (b_w b) o); [exact T|apply incl_tl_refl|reflexivity|reflexivity].
    - unfold b1; cbn [b_wbuf]. rewrite skipn_length. unfold len in *. lia.
    - exists r, b', o', i'. split; [exact E|]. split; [exact R'|]. split.
      { eapply evolves_trans; [|exact E']. constructor; try reflexivity; [apply sameo_pos|].
        cbn [b_w b1]. eapply frame_trans; [apply frame_io|]. eapply frame_trans; [apply frame_ino|apply frame_fd]. }
      split; [exact A1|]. split; [exact A2|]. split; [|exact A4].
      exists (wb ++ d). cbn [b1 b_wbuf] in A3. rewrite <- app_assoc, <- A3.
      split; [apply write_bytes_split|]. split.
      + rewrite A5, Epos1. unfold i1, write_ino. cbn [n_data].
        replace (Z.to_nat (write_pos o i + len wb)) with (Z.to_nat (write_pos o i) + length wb)%nat by (unfold len; lia).
        apply write_at_app.
      + left. assert (lagof b1 o1 i1 = 0) by (unfold lagof; rewrite Epos1; unfold o1; cbn [o_pos set_pos]; lia). destruct A6; congruence. }
  rewrite (epos_pending b o i) in * by (now rewrite Ew).
  destruct (hd IoFull (w_io (b_w b))) as [|s|x0] eqn:Eh; cbv beta iota zeta.
  - destruct (Step IoFull) as (r & b' & o' & i' & E & X). cbv zeta in E.
    destruct (_ || _) eqn:Eb.
    { exfalso. pose proof (write_bytes_len IoFull buf). pose proof (len_nonneg (write_bytes IoFull buf)). unfold len in *. lia. }
    exists r, b', o', i'. split; [|exact X]. exact E.
  - destruct (Step (IoShort s)) as (r & b' & o' & i' & E & X). cbv zeta in E.
    destruct (_ || _) eqn:Eb.
    { exfalso. pose proof (write_bytes_len (IoShort s) buf). pose proof (len_nonneg (write_bytes (IoShort s) buf)). unfold len in *. lia. }
    exists r, b', o', i'. split; [|exact X]. exact E.
  - pose proof (tame_err _ _ _ _ _ T Eh) as F.
    set (b1 := set_world b (set_io (b_w b) (tl (w_io (b_w b))))).
    assert (R1 : rep k b1 o i c p). { destruct R. constructor; auto. now apply live_io. }
    assert (exists e, (if x0 =? EAGAIN then Ok None else Err (A:=option Z) (EOS x0)) = Ok None /\ e = EBlocking 0
                 \/ (if x0 =? EAGAIN then Ok None else Err (A:=option Z) (EOS x0)) = Err (EOS x0) /\ e = EOS x0) as (e & [(-> & ->) | (-> & ->)]).
    { destruct (x0 =? EAGAIN); eauto. }
    + exists (Err (EBlocking 0)), b1, o, i. split; [reflexivity|]. split; [exact R1|].
      split; [apply evolves_world; auto with frame|]. split; [auto|]. split; [auto|]. split; [exists []; rewrite write_at_nil; auto|].
      right. split; auto. split; [cbn [b1 set_world b_wbuf]; congruence|]. eexists. split; [reflexivity|]. now right.
    + exists (Err (EOS x0)), b1, o, i. split; [reflexivity|]. split; [exact R1|].
      split; [apply evolves_world; auto with frame|]. split; [auto|]. split; [auto|]. split; [exists []; rewrite write_at_nil; auto|].
      right. split; auto. split; [cbn [b1 set_world b_wbuf]; congruence|]. eexists. split; [reflexivity|]. left; eauto.
Qed.

Lemma check_closed_rep k b o i c p : rep k b o i c p -> b_check_closed b = (Ok tt, b).
Proof. intros R. unfold b_check_closed. now rewrite (lv_open _ _ _ _ (rp_live _ _ _ _ _ _ R)). Qed.

(** Outcome of a flush *)
Record flushed (faults : Prop) (k : bkind) (b : bstate) (o : ofd) (i : inode) (c : list Z) (p : Z) (r : res unit)
    (b' : bstate) (o' : ofd) (i' : inode) : Prop := mkFl {
  fl_rep : rep k b' o' i' c p;
  fl_ev : evolves b b' o o';
  fl_rbuf : b_rbuf b' = b_rbuf b;
  fl_rpos : b_rpos b' = b_rpos b;
  fl_out : exists d, b_wbuf b = d ++ b_wbuf b' /\ n_data i' = write_at (n_data i) (Z.to_nat (epos b o i)) d
    /\ (lagof b' o' i' = 0 \/ lagof b' o' i' = lagof b o i);
  fl_res : (r = Ok tt /\ b_wbuf b' = []) \/ (faults /\ b_wbuf b' <> [] /\ exists e, r = Err e /\ os_or_block e) }.

Lemma flush_ok faults k b o i c p : rep k b o i c p -> tameb faults b o ->
  exists r b' o' i', flush_unlocked b = (r, b') /\ flushed faults k b o i c p r b' o' i'.
Proof.
  intros R T. unfold flush_unlocked, bind. rewrite (check_closed_rep _ _ _ _ _ _ R).
  destruct (flush_loop_ok faults k (S (length (b_wbuf b))) b o i c p R T ltac:(lia)) as (r & b' & o' & i' & E & A1 & A2 & A3 & A4 & A5 & A6).
  exists r, b', o', i'. split; [exact E|]. now constructor.
Qed.

Lemma b_flush_ok faults k b o i c p : rep k b o i c p -> tameb faults b o ->
  exists r b' o' i', b_flush k b = (r, b') /\ flushed faults k b o i c p r b' o' i'.
Proof.
  intros R T. destruct k; [|apply (flush_ok faults BWriter); auto|apply (flush_ok faults BRandom); auto].
  exists (Ok tt), b, o, i. unfold b_flush, bind. rewrite (check_closed_rep _ _ _ _ _ _ R). unfold on_raw, raw_flush.
  rewrite (check_closed_live _ _ _ _ (rp_live _ _ _ _ _ _ R)). split; [destruct b; reflexivity|].
  pose proof (rp_nowr _ _ _ _ _ _ R eq_refl) as W.
  constructor; auto with frame. exists []. rewrite write_at_nil. auto.
Qed.

(** Once flushed, the file is [c]. *)
Lemma rep_flat k b o i c p : rep k b o i c p -> b_wbuf b = [] ->
  n_data i = c /\ o_pos o = p + len (unread b).
Proof.
  intros R W. rewrite (rp_c _ _ _ _ _ _ R), (rp_p _ _ _ _ _ _ R), W, len_nil, write_at_nil, (epos_clean _ _ _ W). split; [reflexivity|lia].
Qed.

Lemma unread_nil b : b_rbuf b = [] -> unread b = [].
Proof. intros H. unfold unread. rewrite H. apply skipn_nil. Qed.
Lemma unread_len b : (b_rpos b <= length (b_rbuf b))%nat -> len (unread b) = len (b_rbuf b) - Z.of_nat (b_rpos b).
Proof. intros H. unfold unread. rewrite len_skipn. unfold len. lia. Qed.

Lemma write_at_pos c p b (a : list Z) : 0 <= p -> write_at (write_at c (Z.to_nat p) a) (Z.to_nat (p + len a)) b = write_at c (Z.to_nat p) (a ++ b).
Proof.
  intros H. replace (Z.to_nat (p + len a)) with (Z.to_nat p + length a)%nat by (unfold len; lia). apply write_at_app.
Qed.

(** Where [d] goes: the end of the file in append mode. *)
Definition wat (app : bool) (c : list Z) (p : Z) (d : list Z) : Z :=
  if app then match d with [] => p | _ => len c end else p.
Definition put (app : bool) (c : list Z) (p : Z) (d : list Z) : list Z := write_at c (Z.to_nat (wat app c p d)) d.
Definition after (app : bool) (c : list Z) (p : Z) (d : list Z) : Z := wat app c p d + len d.

Lemma wat_nn app c p d : 0 <= p -> 0 <= wat app c p d.
Proof. unfold wat. pose proof (len_nonneg c). destruct app; auto. destruct d; auto. Qed.
Lemma put_end c p d : put true c p d = c ++ d.
Proof.
  unfold put, wat. destruct d as [|x d]; [rewrite write_at_nil; now rewrite app_nil_r|].
  unfold len. now rewrite Nat2Z.id, write_at_end.
Qed.
Lemma write_at_len c a : write_at c (Z.to_nat (len c)) a = c ++ a.
Proof. unfold len. now rewrite Nat2Z.id, write_at_end. Qed.

(** Accepting bytes into the write buffer. *)
Lemma rep_append k b o i c p d : rep k b o i c p -> can_write k = true -> b_rbuf b = [] ->
  rep k (set_wbuf b (b_wbuf b ++ d)) o i (put (o_app o) c p d) (after (o_app o) c p d).
Proof.
  intros R K Er. pose proof (unread_nil _ Er) as Un. pose proof (len_nonneg d) as Ld.
  destruct d as [|x d]; [|set (d0 := x :: d) in *; assert (Hd : d0 <> []) by discriminate; assert (Hw : wat true c p d0 = len c) by reflexivity; clearbody d0; clear x d].
  { rewrite app_nil_r. unfold put, after, wat. rewrite write_at_nil, len_nil, Z.add_0_r.
    replace (if o_app o then p else p) with p by (destruct (o_app o); reflexivity).
    replace (set_wbuf b (b_wbuf b)) with b by (destruct b; reflexivity). exact R. }
  destruct R. pose proof (write_pos_nn _ _ _ _ rp_live0) as P0.
  rewrite Un, len_nil in rp_p0.
  set (b' := set_wbuf b (b_wbuf b ++ d0)).
  assert (Ep : epos b' o i = write_pos o i).
  { apply epos_pending. cbn [b' set_wbuf b_wbuf]. intros X. apply app_eq_nil in X as [_ X]. contradiction. }
  assert (Main : put (o_app o) c p d0 = write_at (n_data i) (Z.to_nat (write_pos o i)) (b_wbuf b ++ d0)
                 /\ after (o_app o) c p d0 = write_pos o i + len (b_wbuf b ++ d0)).
  { unfold put, after, write_pos in *. rewrite len_app. destruct (o_app o) eqn:Ha.
    - rewrite Hw, !write_at_len. destruct (b_wbuf b) as [|y l] eqn:Ew.
      + rewrite write_at_nil in rp_c0. subst c. cbn [app]. rewrite len_nil. split; [reflexivity|lia].
      + rewrite <- Ew in *. rewrite epos_pending in rp_c0 by congruence. unfold write_pos in rp_c0. rewrite Ha, write_at_len in rp_c0.
        subst c. rewrite app_assoc, len_app. split; [reflexivity|lia].
    - rewrite epos_plain in * by exact Ha. cbn [wat]. split; [|lia]. rewrite rp_c0, rp_p0, Z.sub_0_r. now apply write_at_pos. }
  destruct Main as [M1 M2].
  assert (Un' : unread b' = []) by exact Un.
  constructor; cbn [b' set_wbuf b_raw b_w b_size b_rbuf b_rpos b_wbuf]; auto.
  - congruence.
  - now rewrite Ep, M1.
  - fold b'. rewrite Ep, M2, Un', len_nil. lia.
  - unfold after. pose proof (wat_nn (o_app o) c p d0 rp_nn0). lia.
  - fold b'. rewrite Un'. apply slice_nil.
Qed.

(** Bytes waiting to be appended end at the end. *)
Lemma pending_end k b o i c p : rep k b o i c p -> o_app o = true -> b_wbuf b <> [] -> p = len c.
Proof.
  intros R Ha W. pose proof (rp_excl _ _ _ _ _ _ R W) as Er. rewrite (rp_p _ _ _ _ _ _ R), (rp_c _ _ _ _ _ _ R), (unread_nil _ Er), len_nil.
  rewrite epos_pending by exact W. unfold write_pos. rewrite Ha, write_at_len, len_app. lia.
Qed.
Definition shift (c : list Z) (p : Z) (d : list Z) : Z := match d with [] => 0 | _ => len c - p end.
Lemma lag_append k b o i c p d : rep k b o i c p -> o_app o = true -> b_rbuf b = [] ->
  lagof (set_wbuf b (b_wbuf b ++ d)) o i = lagof b o i + shift c p d.
Proof.
  intros R Ha Er. destruct d as [|x d].
  { rewrite app_nil_r. replace (set_wbuf b (b_wbuf b)) with b by (destruct b; reflexivity). cbn. lia. }
  unfold shift, lagof. rewrite epos_pending by (cbn [set_wbuf b_wbuf]; intros X; apply app_eq_nil in X as [_ X]; discriminate).
  destruct (list_eq_dec Z.eq_dec (b_wbuf b) []) as [W|W].
  - destruct (rep_flat _ _ _ _ _ _ R W) as [Hc Ho]. rewrite (unread_nil _ Er), len_nil in Ho. rewrite (epos_clean _ _ _ W). unfold write_pos. rewrite Ha, Hc. lia.
  - rewrite (pending_end _ _ _ _ _ _ R Ha W), (epos_pending _ _ _ W). lia.
Qed.

Lemma evolves_wbuf b o o' l : sameo o o' -> evolves b (set_wbuf b l) o o'.
Proof. constructor; auto with frame. Qed.
Lemma evolves_rbuf b o o' l q : sameo o o' -> evolves b (set_rbuf b l q) o o'.
Proof. constructor; auto with frame. Qed.

(** Outcome of write(d) *)
Inductive written (faults : Prop) (app : bool) (c : list Z) (p : Z) (d : list Z) : res Z -> list Z -> Z -> Prop :=
| Wn_ok : written faults app c p d (Ok (len d)) (put app c p d) (after app c p d)
| Wn_none : forall e, faults -> os_or_block e -> written faults app c p d (Err e) c p
| Wn_all : forall e, faults -> written faults app c p d (Err (EOS e)) (put app c p d) (after app c p d)
| Wn_part : forall n, faults -> 0 <= n <= len d ->
    written faults app c p d (Err (EBlocking n)) (put app c p (firstn (Z.to_nat n) d)) (after app c p (firstn (Z.to_nat n) d)).

Lemma app_same_len {A} (a b c d : list A) : a ++ b = c ++ d -> length a = length c -> a = c /\ b = d.
Proof.
  revert c; induction a as [|x a IH]; intros [|y c] H L; cbn in *; try discriminate; auto.
  injection H as -> H. destruct (IH c H) as [-> ->]; auto.
Qed.
Lemma firstn_app_ge {A} n (a b : list A) : (length a <= n)%nat -> firstn n (a ++ b) = a ++ firstn (n - length a) b.
Proof. intros H. rewrite firstn_app. f_equal. now apply firstn_all2. Qed.

Lemma writer_write_ok faults k b o i c p d : rep k b o i c p -> tameb faults b o -> can_write k = true -> b_rbuf b = [] ->
  exists r b' o' i' c' p', writer_write d b = (r, b') /\ rep k b' o' i' c' p' /\ evolves b b' o o'
    /\ b_rbuf b' = [] /\ written faults (o_app o) c p d r c' p'
    /\ (o_app o = true -> lagof b' o' i' = 0 \/ lagof b' o' i' = lagof b o i + shift c p d \/ (r <> Ok (len d) /\ lagof b' o' i' = lagof b o i)).
Proof.
  intros R T K Er. unfold writer_write. unfold bind at 1. rewrite (check_closed_rep _ _ _ _ _ _ R). unfold bind at 1.
  assert (Pre : exists r b1 o1 i1,
    (if b_size b <? Z.of_nat (length (b_wbuf b)) then flush_unlocked b else (Ok tt, b)) = (r, b1)
    /\ rep k b1 o1 i1 c p /\ evolves b b1 o o1 /\ b_rbuf b1 = [] /\ (lagof b1 o1 i1 = 0 \/ lagof b1 o1 i1 = lagof b o i)
    /\ ((r = Ok tt /\ len (b_wbuf b1) <= b_size b1) \/ (faults /\ exists e, r = Err e /\ os_or_block e))).
  { destruct (Z.ltb_spec (b_size b) (Z.of_nat (length (b_wbuf b)))).
    - destruct (flush_ok faults k b o i c p R T) as (r & b1 & o1 & i1 & E & []).
      exists r, b1, o1, i1. split; [exact E|]. split; [auto|]. split; [auto|]. split; [congruence|].
      split; [destruct fl_out0 as (? & _ & _ & ?); auto|]. destruct fl_res0 as [(-> & W)|(F & _ & X)]; [left|right; auto]. split; auto. rewrite W, len_nil.
      pose proof (rp_size _ _ _ _ _ _ fl_rep0). lia.
    - exists (Ok tt), b, o, i. split; [auto|]. split; [auto|]. split; [auto with frame|]. split; [auto|]. split; [auto|]. left. split; auto. }
  destruct Pre as (r & b1 & o1 & i1 & -> & R1 & E1 & Er1 & Lg & [(-> & Hs)|(F & e & -> & He)]).
  2:{ exists (Err e), b1, o1, i1, c, p. split; [reflexivity|]. split; [auto|]. split; [auto|]. split; [auto|]. split; [now constructor|].
      intros _. destruct Lg; [auto|]. right. right. split; [discriminate|auto]. }
  unfold bind at 1. set (b2 := set_wbuf b1 (b_wbuf b1 ++ d)).
  pose proof (rep_append k b1 o1 i1 c p d R1 K Er1) as R2. rewrite (so_app _ _ (ev_o _ _ _ _ E1)) in R2. fold b2 in R2.
  assert (Lg2 : o_app o = true -> lagof b2 o1 i1 = 0 \/ lagof b2 o1 i1 = lagof b o i + shift c p d).
  { intros Ha. unfold b2. rewrite (lag_append k b1 o1 i1 c p d R1) by (try exact Er1; rewrite (so_app _ _ (ev_o _ _ _ _ E1)); exact Ha).
    destruct Lg as [-> | ->]; [|auto]. destruct (Z.eq_dec (lagof b o i) 0) as [-> |Hl]; [auto|]. left.
    assert (W : b_wbuf b <> []) by (intros W; apply Hl; unfold lagof; rewrite (epos_clean _ _ _ W); lia).
    rewrite (pending_end _ _ _ _ _ _ R Ha W). unfold shift. destruct d; lia. }
  assert (E2 : evolves b b2 o o1).
  { eapply evolves_trans; [exact E1|]. apply evolves_wbuf. apply sameo_refl. }
  destruct (Z.ltb_spec (b_size b2) (Z.of_nat (length (b_wbuf b2)))) as [Hlt|Hge].
  2:{ eexists _, b2, o1, i1, _, _. split; [reflexivity|]. split; [exact R2|]. split; [exact E2|]. split; [exact Er1|]. split; [constructor|]. intros Ha. destruct (Lg2 Ha); auto. }
  destruct (flush_ok faults k b2 o1 i1 _ _ R2 (tameb_evolves _ _ _ _ _ E2 T)) as (r & b3 & o3 & i3 & -> & [R3 E3 Q1 Q2 Q3 Q4]).
  assert (E3' : evolves b b3 o o3) by (eapply evolves_trans; eauto).
  assert (Er3 : b_rbuf b3 = []) by (rewrite Q1; exact Er1).
  assert (Lg3 : o_app o = true -> lagof b3 o3 i3 = 0 \/ lagof b3 o3 i3 = lagof b o i + shift c p d).
  { intros Ha. destruct Q3 as (_ & _ & _ & [X|X]); [auto|]. rewrite X. auto. }
  destruct Q4 as [(-> & W)|(F & W & e & -> & [(x & ->)| ->])].
  - eexists _, b3, o3, i3, _, _. split; [reflexivity|]. split; [exact R3|]. split; [exact E3'|]. split; [exact Er3|]. split; [constructor|]. intros Ha. destruct (Lg3 Ha); auto.
  - eexists _, b3, o3, i3, _, _. split; [reflexivity|]. split; [exact R3|]. split; [exact E3'|]. split; [exact Er3|]. split; [now apply Wn_all|]. intros Ha. destruct (Lg3 Ha); auto.
  - destruct (Z.ltb_spec (b_size b3) (Z.of_nat (length (b_wbuf b3)))) as [Hover|Hfit].
    2:{ eexists _, b3, o3, i3, _, _. split; [reflexivity|]. split; [exact R3|]. split; [exact E3'|]. split; [exact Er3|]. split; [constructor|]. intros Ha. destruct (Lg3 Ha); auto. }
    destruct Q3 as (d0 & D1 & D2 & D3). cbn [b2 set_wbuf b_wbuf] in D1.
    set (n := Z.of_nat (length d) - (Z.of_nat (length (b_wbuf b3)) - b_size b3)).
    set (b4 := set_wbuf b3 (firstn (Z.to_nat (b_size b3)) (b_wbuf b3))).
    assert (Hl : len (b_wbuf b1) + len d = len d0 + len (b_wbuf b3)).
    { rewrite <- !len_app. now rewrite D1. }
    assert (S3 : b_size b3 = b_size b1) by exact (ev_size _ _ _ _ E3).
    pose proof (rp_size _ _ _ _ _ _ R3) as Sp. pose proof (len_nonneg d0) as N0.
    assert (Hn : 0 <= n <= len d) by (unfold n, len in *; lia).
    assert (Cut : d0 ++ firstn (Z.to_nat (b_size b3)) (b_wbuf b3) = b_wbuf b1 ++ firstn (Z.to_nat n) d).
    { transitivity (firstn (length d0 + Z.to_nat (b_size b3)) (d0 ++ b_wbuf b3)).
      - rewrite firstn_app_ge by lia. f_equal. f_equal. lia.
      - rewrite <- D1. rewrite firstn_app_ge by (unfold n, len in *; lia). f_equal. f_equal. unfold n, len in *. lia. }
    assert (Lf : len (firstn (Z.to_nat (b_size b3)) (b_wbuf b3)) = b_size b3) by (rewrite len_firstn; unfold len; lia).
    pose proof (unread_nil _ Er1) as U1. pose proof (unread_nil _ Er3) as U3.
    (* the stream that would have taken the first n bytes only *)
    pose proof (rep_append k b1 o1 i1 c p (firstn (Z.to_nat n) d) R1 K Er1) as R5. rewrite (so_app _ _ (ev_o _ _ _ _ E1)) in R5.
    set (b5 := set_wbuf b1 (b_wbuf b1 ++ firstn (Z.to_nat n) d)) in R5.
    exists (Err (EBlocking n)), b4, o3, i3, (put (o_app o) c p (firstn (Z.to_nat n) d)), (after (o_app o) c p (firstn (Z.to_nat n) d)).
    split; [reflexivity|]. split; [|split; [|split; [exact Er3|split; [now constructor|]]]].
    2:{ eapply evolves_trans; [exact E3'|]. apply evolves_wbuf, sameo_refl. }
    2:{ intros Ha. assert (lagof b4 o3 i3 = lagof b3 o3 i3) as ->; [|destruct (Lg3 Ha); auto].
        unfold lagof. rewrite !epos_pending; auto. cbn [b4 set_wbuf b_wbuf]. intros X. rewrite X, len_nil in Lf. lia. }
    assert (X2 : epos b2 o1 i1 = write_pos o1 i1).
    { apply epos_pending. intros X. rewrite X in Hlt. cbn [length] in Hlt. pose proof (rp_size _ _ _ _ _ _ R2). lia. }
    assert (X4 : epos b4 o3 i3 = write_pos o3 i3).
    { apply epos_pending. cbn [b4 set_wbuf b_wbuf]. intros X. rewrite X, len_nil in Lf. lia. }
    assert (X5 : epos b5 o1 i1 = write_pos o1 i1).
    { apply epos_pending. cbn [b5 set_wbuf b_wbuf]. rewrite <- Cut. intros X. apply app_eq_nil in X as [_ X]. rewrite X, len_nil in Lf. lia. }
    pose proof (epos_pending b3 o3 i3 W) as X3.
    pose proof (rp_p _ _ _ _ _ _ R2) as P2. pose proof (rp_p _ _ _ _ _ _ R3) as P3. pose proof (rp_p _ _ _ _ _ _ R5) as P5.
    pose proof (rp_c _ _ _ _ _ _ R5) as C5. pose proof (rp_nn _ _ _ _ _ _ R5) as Pn5.
    pose proof (write_pos_nn _ _ _ _ (rp_live _ _ _ _ _ _ R2)) as Wn2.
    change (unread b2) with (unread b1) in P2. change (unread b5) with (unread b1) in P5. rewrite U1, len_nil in *. rewrite U3, len_nil in P3.
    rewrite X2 in *. rewrite X3 in P3. rewrite X5 in *. change (b_wbuf b2) with (b_wbuf b1 ++ d) in *. change (b_wbuf b5) with (b_wbuf b1 ++ firstn (Z.to_nat n) d) in *.
    assert (Adv : write_pos o3 i3 = write_pos o1 i1 + len d0) by (rewrite D1, len_app in P2; lia).
    destruct R3. constructor; cbn [b4 set_wbuf b_raw b_w b_size b_rbuf b_rpos b_wbuf]; auto.
    + congruence.
    + fold b4. rewrite X4, Adv, D2, write_at_pos by lia. now rewrite Cut.
    + fold b4. rewrite X4, Adv. change (unread b4) with (unread b3). rewrite U3, len_nil, P5, <- Cut, len_app. lia.
    + change (unread b4) with (unread b3). rewrite U3. apply slice_nil.
Qed.

(** * Reading *)

Lemma raw_read_cases faults f w o i n : live f w o i -> 0 <= n -> no_epipe w -> tame_rd faults f w o ->
  f_readable f = true ->
  exists r w', raw_read f (Some n) w = (r, w') /\
  ( (exists d, r = Ok (Some d) /\ len d <= n /\ slice_at (n_data i) (o_pos o) d
       /\ (d = [] -> n = 0 \/ len (n_data i) <= o_pos o)
       /\ w' = upd_fd (set_io w (tl (w_io w))) (fd_of f) (Some (set_pos o (o_pos o + len d))))
  \/ (faults /\ (r = Ok None \/ exists e, r = Err (EOS e)) /\ (w' = w \/ w' = set_io w (tl (w_io w))))).
Proof.
  intros L Hn Hp T Rf. unfold raw_read, bind.
  rewrite (check_closed_live _ _ _ _ L), (check_readable_live _ _ _ _ L), Rf.
  destruct (Z.ltb_spec n 0); [lia|].
  destruct (inner_read_cases faults f w o i n L Hn Hp T Rf) as (r & w' & -> & [(e & -> & ->)|X]).
  - eexists _, _. split; [reflexivity|]. left. eexists. split; [reflexivity|].
    destruct (read_data_props o i e n Hn (lv_pos _ _ _ _ L)) as (A & B & C). split; [exact A|]. split; [exact B|]. split; [exact C|reflexivity].
  - eexists _, _. split; [reflexivity|]. right. exact X.
Qed.

(** Loop invariant of fill_loop: [out] is what the file has from [q] on, and the raw
    position is just after it. *)
Lemma fill_loop_ok faults : forall fuel b o i wanted n q out,
  live (b_raw b) (b_w b) o i -> f_readable (b_raw b) = true -> no_epipe (b_w b) -> tameb faults b o ->
  0 < wanted -> 0 <= q -> slice_at (n_data i) q out -> o_pos o = q + len out ->
  (Z.to_nat (len (n_data i) - o_pos o) < fuel)%nat ->
  exists r w' o', fill_loop fuel wanted n out b = (r, set_world b w') /\ live (b_raw b) w' o' i
    /\ evolves b (set_world b w') o o'
    /\ ( (exists out' nd, r = Ok (out', nd) /\ slice_at (n_data i) q out' /\ o_pos o' = q + len out'
            /\ len out <= len out'
            /\ (n <= len out' \/ (nd = Some [] /\ len (n_data i) <= q + len out') \/ (faults /\ nd = None)))
       \/ (faults /\ exists e, r = Err (EOS e)) ).
Proof.
  induction fuel as [|fuel IH]; intros b o i wanted n q out L Rf Hp T Hw Hq Hs Ho Hf; [lia|].
  cbn [fill_loop]. assert (SW : set_world b (b_w b) = b) by (destruct b; reflexivity).
  destruct (Z.ltb_spec (Z.of_nat (length out)) n) as [Hlt|Hge].
  2:{ exists (Ok (out, Some [])), (b_w b), o. rewrite SW. split; [reflexivity|]. split; [exact L|]. split; [auto with frame|].
      left. exists out, (Some []). split; [auto|]. split; [auto|]. split; [auto|]. split; [lia|]. left. exact Hge. }
  unfold bind, on_raw.
  destruct (raw_read_cases faults _ _ o i wanted L ltac:(lia) Hp (tame_tame_rd _ _ _ _ T) Rf) as (r & w1 & -> & C).
  destruct C as [(d & -> & Hd1 & Hd2 & Hd3 & ->)|(F & Hr & Hw1)].
  - set (w1 := upd_fd _ _ _). set (o1 := set_pos o (o_pos o + len d)).
    pose proof (lv_pos _ _ _ _ L) as P0. pose proof (len_nonneg d) as Ld.
    assert (L1 : live (b_raw b) w1 o1 i) by (unfold w1, o1; apply live_pos; [now apply live_io|lia]).
    assert (E1 : evolves b (set_world b w1) o o1).
    { apply evolves_world; [apply sameo_pos|]. eapply frame_trans; [apply frame_io|apply frame_fd]. }
    destruct d as [|x d].
    + exists (Ok (out, Some [])), w1, o1. split; [reflexivity|]. split; [exact L1|]. split; [exact E1|].
      left. exists out, (Some []). split; [auto|]. split; [auto|]. unfold o1. cbn [o_pos set_pos]. rewrite len_nil in *.
      split; [lia|]. split; [lia|]. right. left. split; auto. destruct (Hd3 eq_refl); lia.
    + set (d1 := x :: d) in *.
      assert (Sd : slice_at (n_data i) q (out ++ d1)).
      { apply slice_app; auto. now rewrite <- Ho. }
      assert (Lin : len (n_data i) >= o_pos o + len d1).
      { destruct Hd2 as [[X|X] _]; [discriminate|lia]. }
      assert (0 < len d1) by (unfold d1; rewrite len_cons; pose proof (len_nonneg d); lia).
      destruct (IH (set_world b w1) o1 i wanted n q (out ++ d1)) as (r & w2 & o2 & E2 & L2 & V2 & C2); auto.
      * unfold no_epipe in *. cbn. intros X. apply Hp. now apply incl_tl_refl.
      * exact (tameb_evolves _ _ _ _ _ E1 T).
      * unfold o1. cbn [o_pos set_pos]. rewrite len_app. lia.
      * unfold o1. cbn [o_pos set_pos]. lia.
      * exists r, w2, o2. split; [exact E2|]. split; [exact L2|]. split; [eapply evolves_trans; [exact E1|exact V2]|].
        destruct C2 as [(out' & nd & A & B & C & D & G)|X]; [left|right; exact X].
        exists out', nd. rewrite len_app in D. split; [auto|]. split; [auto|]. split; [auto|]. split; [lia|auto].
  - assert (X : exists w2, w1 = w2 /\ live (b_raw b) w2 o i /\ frame (fd_of (b_raw b)) (o_uid o) (b_w b) w2).
    { destruct Hw1 as [-> | ->]; eexists; (split; [reflexivity|]); split; auto with frame. now apply live_io. }
    destruct X as (w2 & -> & L2 & F2). pose proof (evolves_world b w2 o o (sameo_refl o) F2) as E2.
    destruct Hr as [-> | (e & ->)].
    + exists (Ok (out, None)), w2, o. split; [reflexivity|]. split; [exact L2|]. split; [exact E2|].
      left. exists out, None. split; [auto|]. split; [auto|]. split; [auto|]. split; [lia|]. right. right. auto.
    + exists (Err (EOS e)), w2, o. split; [reflexivity|]. split; [exact L2|]. split; [exact E2|]. right. eauto.
Qed.

Lemma slice_skip c p n l : 0 <= p -> slice_at c p l -> slice_at c (p + Z.of_nat (Nat.min n (length l))) (skipn n l).
Proof.
  intros Hp S. rewrite (slice_at_eq c p l Hp S).
  set (m := length l). assert (Hm : (length (firstn m (skipn (Z.to_nat p) c)) <= m)%nat) by (rewrite firstn_length; lia).
  destruct S as [[-> | S] _].
  - subst m. cbn [length firstn]. rewrite skipn_nil, Nat.min_0_r. apply slice_nil.
  - assert (length (firstn m (skipn (Z.to_nat p) c)) = m) as Hl.
    { rewrite firstn_length, skipn_length. unfold len, m in *. lia. }
    rewrite Hl. rewrite skipn_firstn_comm, skipn_skipn.
    destruct (Nat.le_gt_cases m n) as [Hle|Hgt].
    + replace (m - n)%nat with O by lia. apply slice_nil.
    + pose proof (firstn_skipn_slice c (Z.to_nat p + n) (m - n)) as X.
      replace (Z.of_nat (Z.to_nat p + n)) with (p + Z.of_nat (Nat.min n m)) in X by lia. exact X.
Qed.
Lemma slice_first c p n l : slice_at c p l -> slice_at c p (firstn n l).
Proof.
  intros [A B]. split.
  - rewrite len_firstn. destruct A as [-> | A]; [left; now rewrite firstn_nil|].
    right. lia.
  - intros i Hi. rewrite len_firstn in Hi. rewrite byte_at_firstn by lia. apply B. lia.
Qed.

(** Keeping the read buffer in step. *)
Lemma rep_rbuf k b o i c p l : live (b_raw b) (b_w b) o i -> 0 < b_size b ->
  can_read k = true -> f_readable (b_raw b) = true -> (can_write k = true -> f_writable (b_raw b) = true) ->
  b_wbuf b = [] -> n_data i = c -> 0 <= p -> o_pos o = p + len l -> slice_at c p l ->
  rep k (set_rbuf b l 0) o i c p.
Proof.
  intros L S K Rf Wf W Hc Hp Ho Hs.
  constructor; cbn [set_rbuf b_raw b_w b_size b_rbuf b_rpos b_wbuf]; auto.
  - lia.
  - congruence.
  - congruence.
  - now rewrite W.
  - rewrite epos_clean by exact W. unfold unread. cbn [set_rbuf b_rpos b_rbuf skipn]. rewrite W, len_nil. lia.
Qed.

(** Outcome of reading: [d] was delivered. *)
Lemma rep_consume k b o i c p n : rep k b o i c p -> (n <= length (unread b))%nat -> b_wbuf b = [] ->
  rep k (set_rbuf b (b_rbuf b) (b_rpos b + n)) o i c (p + Z.of_nat n).
Proof.
  intros R Hn W. pose proof (rep_flat _ _ _ _ _ _ R W) as [Hc Ho].
  assert (Hu : length (unread b) = (length (b_rbuf b) - b_rpos b)%nat) by (unfold unread; apply skipn_length).
  assert (U : unread (set_rbuf b (b_rbuf b) (b_rpos b + n)) = skipn n (unread b)).
  { unfold unread. cbn [set_rbuf b_rbuf b_rpos]. now rewrite skipn_skipn. }
  destruct R. constructor; cbn [set_rbuf b_raw b_w b_size b_rbuf b_rpos b_wbuf]; auto.
  - lia.
  - rewrite epos_clean by exact W. rewrite U, W, len_nil, len_skipn. unfold len in *. lia.
  - lia.
  - rewrite U. pose proof (slice_skip c p n (unread b) rp_nn0 rp_slice0) as X. now rewrite Nat.min_l in X by lia.
Qed.

Lemma read_fuel_live b o i : live (b_raw b) (b_w b) o i -> read_fuel b = (Ok (S (length (n_data i))), b).
Proof.
  intros L. unfold read_fuel, bind, on_raw, readall_fuel. rewrite (lv_fd _ _ _ _ L), (lv_ino _ _ _ _ L).
  destruct b; reflexivity.
Qed.

Lemma skipn_of_nat_len (c : list Z) p : 0 <= p -> len (skipn (Z.to_nat p) c) = Z.max 0 (len c - p).
Proof. intros. rewrite len_skipn. unfold len. lia. Qed.

Definition got (faults : Prop) (k : bkind) (b' : bstate) (o' : ofd) (i : inode) (c : list Z) (p : Z)
  (r : res (option (list Z))) (good : list Z -> Prop) : Prop :=
  (exists d, rep k b' o' i c (p + len d) /\ slice_at c p d
     /\ ((r = Ok (Some d) /\ (good d \/ faults)) \/ (faults /\ d = [] /\ r = Ok None)))
  \/ (faults /\ exists e, r = Err (EOS e)).

Lemma read_all_ok faults k b o i c p : rep k b o i c p -> tameb faults b o -> no_epipe (b_w b) ->
  can_read k = true -> b_wbuf b = [] ->
  forall a, (a = None \/ a = Some (-1)) ->
  exists r b' o', read_unlocked a b = (r, b') /\ evolves b b' o o' /\ b_wbuf b' = []
    /\ got faults k b' o' i c p r (rest_from c p).
Proof.
  intros R T Hp K W a Ha. pose proof (rep_flat _ _ _ _ _ _ R W) as [Hc Ho].
  pose proof (rp_live _ _ _ _ _ _ R) as L. pose proof (rp_rd _ _ _ _ _ _ R K) as Rf.
  pose proof (rp_nn _ _ _ _ _ _ R) as Pn. pose proof (len_nonneg (unread b)) as Lu.
  assert ((match a with None => true | Some k => k =? -1 end) = true) as Eall by (destruct Ha as [-> | ->]; reflexivity).
  unfold read_unlocked. rewrite Eall. unfold bind at 1, reset_read_buf. unfold bind at 1, on_raw.
  cbn [set_rbuf b_raw b_w].
  destruct (raw_readall_ok faults (b_raw b) (b_w b) o i L Hp (tame_tame_rd _ _ _ _ T) Rf)
    as (r & w1 & o1 & -> & L1 & U1 & Q1 & Q2 & Q3 & Q4 & F1 & C1).
  assert (Inh : evolves b (set_world (set_rbuf b [] 0) w1) o o1).
  { eapply evolves_trans; [apply (evolves_rbuf b o o [] 0%nat), sameo_refl|]. apply evolves_world; auto. constructor; auto. }
  assert (rr : forall d, o_pos o1 = o_pos o + len d -> slice_at c (o_pos o) d ->
     rep k (set_world (set_rbuf b [] 0) w1) o1 i c (p + len (unread b ++ d)) /\ slice_at c p (unread b ++ d)).
  { intros d Hd Hs. assert (slice_at c p (unread b ++ d)) as S2.
    { apply slice_app; auto. apply (rp_slice _ _ _ _ _ _ R). now rewrite <- Ho. }
    split; [|exact S2].
    pose proof (len_nonneg (unread b ++ d)).
    destruct R. apply (rep_rbuf k (set_world b w1) o1 i c _ []); auto; try congruence.
    - lia.
    - rewrite len_nil, len_app. lia.
    - apply slice_nil. }
  exists (match r with
          | Ok None => Ok (match unread b with [] => None | l => Some l end)
          | Ok (Some d) => Ok (Some (unread b ++ d))
          | Err e => Err e end), (set_world (set_rbuf b [] 0) w1), o1.
  split. { destruct r as [[d|]|e]; reflexivity. }
  split; [exact Inh|]. split; [exact W|].
  destruct C1 as [[-> Hpos]|(F & d & Hs & Hpos & Hr)].
  - left. exists (unread b ++ skipn (Z.to_nat (o_pos o)) (n_data i)).
    assert (Hs : slice_at c (o_pos o) (skipn (Z.to_nat (o_pos o)) (n_data i))).
    { rewrite Hc. apply rest_from_skipn. pose proof (lv_pos _ _ _ _ L). lia. }
    destruct (rr (skipn (Z.to_nat (o_pos o)) (n_data i))) as [A B].
    { rewrite Hpos. unfold remaining, len. lia. }
    { exact Hs. }
    split; [exact A|]. split; [exact B|]. left. split; [reflexivity|]. left.
    split; [|exact B].
    pose proof (lv_pos _ _ _ _ L). rewrite len_app, skipn_of_nat_len by lia. rewrite Hc.
    destruct (rp_slice _ _ _ _ _ _ R) as [[X|X] _]; [rewrite X in *; rewrite len_nil in *; lia|]. lia.
  - rewrite Hc in Hs. destruct (rr d Hpos Hs) as [A B].
    destruct Hr as [(e & ->) | ->].
    + right. eauto.
    + destruct d as [|x d]; cbn [some_bytes].
      * left. rewrite app_nil_r in *. exists (unread b). split; [exact A|]. split; [exact B|].
        destruct (unread b); [right|left]; auto.
      * left. exists (unread b ++ x :: d). split; [exact A|]. split; [exact B|]. left. auto.
Qed.

Lemma slice_max c p d : 0 <= p -> slice_at c p d -> len d <= Z.max 0 (len c - p).
Proof. intros P [[-> | H] _]; [rewrite len_nil; lia|lia]. Qed.

Lemma rep_norm k b o i c p : rep k b o i c p -> evolves b b o o.
Proof. auto with frame. Qed.

(** read(n), n >= 0 *)
Lemma read_n_ok faults k b o i c p n : rep k b o i c p -> tameb faults b o -> no_epipe (b_w b) ->
  can_read k = true -> b_wbuf b = [] -> 0 <= n ->
  exists r b' o', read_unlocked (Some n) b = (r, b') /\ evolves b b' o o' /\ b_wbuf b' = []
    /\ got faults k b' o' i c p r (fun d => len d = Z.min n (Z.max 0 (len c - p))).
Proof.
  intros R T Hp K W Hn. pose proof (rep_flat _ _ _ _ _ _ R W) as [Hc Ho].
  pose proof (rp_live _ _ _ _ _ _ R) as L. pose proof (rp_rd _ _ _ _ _ _ R K) as Rf.
  pose proof (rp_nn _ _ _ _ _ _ R) as Pn. pose proof (len_nonneg (unread b)) as Lu.
  pose proof (rp_slice _ _ _ _ _ _ R) as Sl. pose proof (rp_size _ _ _ _ _ _ R) as Bs.
  unfold read_unlocked. destruct (Z.eqb_spec n (-1)); [lia|].
  destruct (Z.leb_spec n (Z.of_nat (length (unread b)))) as [Hle|Hgt].
  - eexists _, _, o. split; [reflexivity|]. split; [apply evolves_rbuf, sameo_refl|]. split; [exact W|].
    left. exists (firstn (Z.to_nat n) (unread b)).
    assert (Hl : len (firstn (Z.to_nat n) (unread b)) = n) by (rewrite len_firstn; unfold len; lia).
    split. { rewrite Hl. replace n with (Z.of_nat (Z.to_nat n)) at 2 by lia. apply rep_consume; auto. lia. }
    split; [now apply slice_first|]. left. split; [reflexivity|]. left. rewrite Hl.
    pose proof (slice_max _ _ _ Pn Sl). unfold len in *. lia.
  - unfold bind at 1. rewrite (read_fuel_live _ _ _ L). unfold bind at 1.
    destruct (fill_loop_ok faults (S (length (n_data i))) b o i (Z.max (b_size b) n) n p (unread b))
      as (r & w1 & o1 & E & L1 & V1 & C1); auto; try lia.
    { now rewrite Hc. }
    { pose proof (lv_pos _ _ _ _ L). unfold len. lia. }
    rewrite E. rewrite Hc in C1.
    destruct C1 as [(out & nd & -> & Hs & Hpos & Hlen & Hend)|(F & e & ->)].
    2:{ eexists _, _, o1. split; [reflexivity|]. split; [exact V1|]. split; [exact W|]. right. split; [exact F|].
        eauto. }
    set (m := Z.to_nat (Z.min n (Z.of_nat (length out)))).
    pose proof (len_nonneg out) as Lo. fold (len out) in m.
    assert (Hm : (m <= length out)%nat) by (unfold m, len in *; lia).
    eexists _, _, o1. split; [cbv zeta; reflexivity|].
    split; [eapply evolves_trans; [exact V1|apply evolves_rbuf, sameo_refl]|]. split; [exact W|].
    left. exists (firstn m out).
    assert (Hl : len (firstn m out) = Z.of_nat m) by (rewrite len_firstn; lia).
    split.
    { destruct R. apply rep_rbuf; cbn [set_world b_raw b_w b_wbuf b_size]; auto.
      - lia.
      - rewrite Hl, len_skipn. unfold len in *. lia.
      - rewrite Hl. pose proof (slice_skip c p m out Pn Hs) as X. now rewrite Nat.min_l in X by lia. }
    split; [now apply slice_first|].
    pose proof (slice_max _ _ _ Pn Hs).
    destruct out as [|x out].
    + destruct Hend as [He|[[-> He]|[F ->]]].
      * rewrite len_nil in He. unfold len in *. lia.
      * left. destruct m; (split; [reflexivity|left]); cbn [firstn]; rewrite len_nil in *; lia.
      * right. destruct m; auto.
    + left. split; [reflexivity|]. destruct Hend as [He|[[_ He]|[F _]]]; auto; left; rewrite Hl; unfold m, len in *; lia.
Qed.
