(** C64: what failing reads of a buffered stream leave behind. *)
From Coq Require Import ZArith Ascii String List Bool Lia.
From Verif Require Import M_Base M_Modes M_Registry M_Kernel M_World M_Raw M_Buffered S_Bytes S_Raw S_Buffered S_ReadFail
  S_Demo P_Bytes P_Raw P_Buffered P_BufOps P_BufRun.
Import ListNotations.
Open Scope string_scope.
Open Scope Z_scope.

(** * What always holds, even when the place is lost *)
Record weak (b : bstate) (o : ofd) (i : inode) : Prop := mkWeak {
  wk_live : live (b_raw b) (b_w b) o i; wk_size : 0 < b_size b;
  wk_rd : f_readable (b_raw b) = true; wk_wbuf : b_wbuf b = []; wk_io : no_epipe (b_w b) }.

Lemma weak_evolves b b' o o' i : weak b o i -> evolves b b' o o' -> live (b_raw b') (b_w b') o' i -> b_wbuf b' = [] -> weak b' o' i.
Proof.
  intros [] V L W. pose proof (no_epipe_evolves _ _ _ _ V wk_io0). destruct V. constructor; auto; try congruence.
Qed.
Definition kept {A} (m : B A) : Prop := forall b o i, weak b o i ->
  exists r b' o', m b = (r, b') /\ weak b' o' i /\ evolves b b' o o'.
Lemma kept_bind {A X} (m : B A) (g : A -> B X) : kept m -> (forall a, kept (g a)) -> kept (bind m g).
Proof.
  intros Hm Hg b o i W. destruct (Hm b o i W) as (r & b1 & o1 & E & W1 & V1). unfold bind. rewrite E.
  destruct r as [a|e]; [|eauto 7]. destruct (Hg a b1 o1 i W1) as (r & b2 & o2 & E2 & W2 & V2).
  exists r, b2, o2. split; [exact E2|]. split; [exact W2|eapply evolves_trans; eauto].
Qed.
Lemma kept_ret {A} (a : A) : kept (ret a).
Proof. intros b o i W. exists (Ok a), b, o. split; [reflexivity|]. split; auto with frame. Qed.
Lemma kept_raise {A} e : kept (@raise bstate A e).
Proof. intros b o i W. exists (Err e), b, o. split; [reflexivity|]. split; auto with frame. Qed.
Lemma kept_check : kept b_check_closed.
Proof.
  intros b o i W. exists (Ok tt), b, o. unfold b_check_closed. rewrite (lv_open _ _ _ _ (wk_live _ _ _ W)).
  split; [reflexivity|]. split; auto with frame.
Qed.
Lemma kept_rbuf {A} (x : bstate -> A) (l : bstate -> list Z) (q : bstate -> nat) : kept (fun b => (Ok (x b), set_rbuf b (l b) (q b))).
Proof.
  intros b o i W. exists (Ok (x b)), (set_rbuf b (l b) (q b)), o. split; [reflexivity|].
  assert (V : evolves b (set_rbuf b (l b) (q b)) o o) by apply evolves_rbuf, sameo_refl.
  split; [|exact V]. apply (weak_evolves b _ o o i W V); [apply (wk_live _ _ _ W)|apply (wk_wbuf _ _ _ W)].
Qed.
Lemma kept_look {A X} (x : bstate -> X) (g : X -> B A) : (forall v, kept (g v)) -> kept (fun b => g (x b) b).
Proof. intros H b o i W. apply (H (x b) b o i W). Qed.

Definition keptr {A} (m : rawio -> M A) : Prop := forall f w o i, live f w o i -> f_readable f = true -> no_epipe w ->
  exists r w' o', m f w = (r, w') /\ live f w' o' i /\ sameo o o' /\ frame (fd_of f) (o_uid o) w w'.
Lemma kept_raw {A} (m : rawio -> M A) : keptr m -> kept (on_raw m).
Proof.
  intros H b o i W. destruct (H _ _ o i (wk_live _ _ _ W) (wk_rd _ _ _ W) (wk_io _ _ _ W)) as (r & w' & o' & E & L & S & F).
  exists r, (set_world b w'), o'. unfold on_raw. rewrite E. split; [reflexivity|].
  assert (V : evolves b (set_world b w') o o') by now apply evolves_world. split; [|exact V].
  apply (weak_evolves b _ o o' i W V); [exact L|apply (wk_wbuf _ _ _ W)].
Qed.
Lemma keptr_read n : 0 <= n -> keptr (fun f => raw_read f (Some n)).
Proof.
  intros Hn f w o i L Rf Hp.
  destruct (raw_read_cases True f w o i n L Hn Hp ltac:(left; auto) Rf) as (r & w' & E & C).
  exists r, w'. destruct C as [(d & _ & _ & _ & _ & ->)|(_ & _ & C)].
  - exists (set_pos o (o_pos o + len d)). split; [exact E|]. pose proof (lv_pos _ _ _ _ L). pose proof (len_nonneg d).
    split; [apply live_pos; [now apply live_io|lia]|]. split; [apply sameo_pos|]. eapply frame_trans; [apply frame_io|apply frame_fd].
  - exists o. split; [exact E|]. destruct C as [-> | ->]; (split; [auto|]); try (now apply live_io); auto with frame.
Qed.
Lemma keptr_readall : keptr raw_readall.
Proof.
  intros f w o i L Rf Hp.
  destruct (raw_readall_ok True f w o i L Hp ltac:(left; auto) Rf) as (r & w1 & o1 & E & L1 & U1 & Q1 & Q2 & Q3 & Q4 & F1 & _).
  exists r, w1, o1. split; [exact E|]. split; [exact L1|]. split; [constructor; auto|exact F1].
Qed.
Lemma keptr_tell : keptr raw_tell.
Proof.
  intros f w o i L _ _. rewrite (raw_tell_live _ _ _ _ L). eexists _, _, o. split; [reflexivity|]. split; [now apply live_refd|]. split; [apply sameo_refl|apply frame_fd].
Qed.
Lemma keptr_flush : keptr raw_flush.
Proof. intros f w o i L _ _. unfold raw_flush. rewrite (check_closed_live _ _ _ _ L). eexists _, _, o. split; [reflexivity|]. auto with frame. Qed.
Lemma keptr_size : keptr raw_size.
Proof. intros f w o i L _ _. rewrite (raw_size_live _ _ _ _ L). eexists _, _, o. split; [reflexivity|]. auto with frame. Qed.
Lemma keptr_seek off wh : keptr (fun f => raw_seek f off wh).
Proof.
  intros f w o i L _ _. rewrite (raw_seek_live _ _ _ _ _ _ L).
  destruct (seek_base o i wh) as [z|]; [destruct (Z.ltb_spec (z + off) 0)|]; try (eexists _, _, o; split; [reflexivity|]; solve [auto with frame]).
  eexists _, _, (set_pos o (z + off)). split; [reflexivity|]. split; [now apply live_pos|]. split; [apply sameo_pos|apply frame_fd].
Qed.

Lemma kept_fill wanted n : 0 <= wanted -> forall fuel out, kept (fill_loop fuel wanted n out).
Proof.
  intros Hw. induction fuel as [|fuel IH]; intros out; cbn [fill_loop]; [apply kept_raise|].
  destruct (_ <? n); [|apply kept_ret]. apply kept_bind; [now apply kept_raw, keptr_read|].
  intros [[|x d]|]; [apply kept_ret|apply IH|apply kept_ret].
Qed.
Lemma kept_fuel : kept read_fuel.
Proof.
  apply kept_bind; [|intros; apply kept_ret]. apply kept_raw. intros f w o i L _ _. unfold readall_fuel. eexists _, w, o. split; [reflexivity|].
  auto with frame.
Qed.
Lemma kept_read_unlocked n : kept (read_unlocked n).
Proof.
  intros b o i W. unfold read_unlocked. destruct (match n with None => true | Some k => k =? -1 end) eqn:Ea.
  - assert (K : kept (reset_read_buf ;; c <- on_raw raw_readall ;;
       match c with None => ret (match unread b with [] => None | l => Some l end) | Some c => ret (Some (unread b ++ c)) end)%list);
      [|apply (K b o i W)]. apply kept_bind; [apply (kept_rbuf (fun _ => tt) (fun _ => []) (fun _ => 0%nat))|].
    intros _. apply kept_bind; [apply kept_raw, keptr_readall|]. intros [c|]; apply kept_ret.
  - destruct (_ <=? _).
    + apply (kept_rbuf (fun b => Some (firstn (Z.to_nat (match n with Some k => k | None => 0 end)) (unread b))) b_rbuf
        (fun b => b_rpos b + Z.to_nat (match n with Some k => k | None => 0 end))%nat b o i W).
    + pose proof (wk_size _ _ _ W). set (z := match n with Some k => k | None => 0 end).
      assert (K : kept (fuel <- read_fuel ;; r <- fill_loop fuel (Z.max (b_size b) z) z (unread b) ;;
         let '(out, nodata) := r in let m := Z.to_nat (Z.min z (Z.of_nat (length out))) in
         (fun b => (Ok tt, set_rbuf b (skipn m out) 0)) ;;
         ret (match out with [] => nodata | _ => Some (firstn m out) end))).
      { apply kept_bind; [apply kept_fuel|]. intros fuel. apply kept_bind; [apply kept_fill; lia|]. intros [out nd].
        apply kept_bind; [apply (kept_rbuf (fun _ => tt) (fun _ => _) (fun _ => 0%nat))|]. intros _. apply kept_ret. }
      apply (K b o i W).
Qed.
Lemma kept_peek_unlocked n : kept (peek_unlocked n).
Proof.
  unfold peek_unlocked. apply kept_bind.
  - intros b o i W. destruct (_ || _) eqn:Ec; [|apply (kept_ret tt b o i W)].
    pose proof (wk_size _ _ _ W) as Bs. fold (len (unread b)) in Ec |- *.
    assert (Lt : 0 <= b_size b - len (unread b)).
    { apply orb_true_iff in Ec as [Ec|Ec]; [apply Z.ltb_lt in Ec; lia|apply Z.leb_le in Ec; lia]. }
    assert (K : kept (c <- on_raw (fun f => raw_read f (Some (b_size b - len (unread b)))) ;;
        match c with Some ((_ :: _) as c) => fun b => (Ok tt, set_rbuf b (unread b ++ c) 0) | _ => ret tt end)%list).
    { apply kept_bind; [now apply kept_raw, keptr_read|]. intros [[|x d]|]; [apply kept_ret| |apply kept_ret].
      apply (kept_rbuf (fun _ => tt) (fun b => unread b ++ x :: d)%list (fun _ => 0%nat)). }
    apply (K b o i W).
  - intros _ b o i W. eexists _, b, o. split; [reflexivity|]. split; auto with frame.
Qed.

Lemma kept_op op : forall b o i, weak b o i -> exists out b' o', run_bop BReader op b = (out, b') /\ weak b' o' i /\ evolves b b' o o'.
Proof.
  assert (Lift : forall A (f : A -> rout) (m : B A), kept m -> forall b o i, weak b o i ->
    exists out b' o', blift f (m b) = (out, b') /\ weak b' o' i /\ evolves b b' o o').
  { intros A f m K b o i W. destruct (K b o i W) as (r & b' & o' & -> & W' & V). destruct r; cbn; eauto 7. }
  destruct op; cbn [run_bop]; apply Lift; unfold b_read, b_read1, b_peek, b_write, b_tell, b_fsize, b_flush, b_truncate.
  - unfold reader_read. destruct (match n with Some k => k <? -1 | None => false end); [apply kept_raise|apply kept_read_unlocked].
  - unfold reader_read1. apply kept_bind; [apply kept_check|]. intros _ b o i W.
    destruct (_ =? 0); [apply (kept_ret (Some []) b o i W)|].
    assert (K : kept (peek_unlocked 1 ;; fun b2 => read_unlocked (Some (Z.min (if n <? 0 then b_size b else n) (Z.of_nat (length (unread b2))))) b2)).
    { apply kept_bind; [apply kept_peek_unlocked|]. intros _.
      apply (kept_look (fun b2 => Z.of_nat (length (unread b2))) (fun v => read_unlocked (Some (Z.min (if n <? 0 then b_size b else n) v)))).
      intros v. apply kept_read_unlocked. }
    apply (K b o i W).
  - apply kept_bind; [apply kept_check|intros _; apply kept_peek_unlocked].
  - apply kept_raise.
  - unfold b_seek. destruct (negb _); [apply kept_raise|]. apply kept_bind; [apply kept_check|]. intros _.
    apply (kept_look (fun b => Z.of_nat (length (unread b))) (fun v => n <- mixin_seek (if whence =? 1 then offset - v else offset) whence ;; reset_read_buf ;; ret n)).
    intros v. apply kept_bind; [apply kept_bind; [apply kept_raw, keptr_seek|]|].
    { intros n. destruct (n <? 0); [apply kept_raise|apply kept_ret]. }
    intros n. apply kept_bind; [apply (kept_rbuf (fun _ => tt) (fun _ => []) (fun _ => 0%nat))|intros _; apply kept_ret].
  - unfold reader_tell. apply kept_bind.
    { apply kept_bind; [apply kept_raw, keptr_tell|]. intros n. destruct (n <? 0); [apply kept_raise|apply kept_ret]. }
    intros n b o i W. eexists _, b, o. split; [reflexivity|]. split; auto with frame.
  - apply kept_bind; [apply kept_bind; [apply kept_check|intros; apply kept_raw, keptr_flush]|intros _; apply kept_raw, keptr_size].
  - apply kept_bind; [apply kept_check|intros; apply kept_raw, keptr_flush].
  - apply kept_bind; [apply kept_check|intros; apply kept_raise].
Qed.

(** A successful seek() finds the place again. *)
Lemma seek_found b o i off wh t b' : weak b o i -> b_seek BReader off wh b = (Ok t, b') ->
  0 <= t /\ (wh <> 1 -> seek_target (n_data i) 0 off wh = Some t) /\ exists o', rep BReader b' o' i (n_data i) t /\ evolves b b' o o'.
Proof.
  intros [L S Rf W Io]. unfold b_seek. destruct (valid_whence wh) eqn:Vw; [|discriminate]. cbn [negb].
  unfold bind at 1, b_check_closed. rewrite (lv_open _ _ _ _ L). unfold mixin_seek, bind, on_raw. rewrite (raw_seek_live _ _ _ _ _ _ L).
  set (q := if wh =? 1 then off - Z.of_nat (length (unread b)) else off).
  assert (St : exists base, seek_base o i wh = Some base /\ (wh <> 1 -> seek_target (n_data i) 0 off wh = Some (base + q))).
  { unfold seek_base, seek_target, valid_whence, q in *.
    destruct (Z.eqb_spec wh 0) as [-> |]; [cbn; eexists; split; [reflexivity|]; intros _; f_equal; lia|].
    destruct (Z.eqb_spec wh 1); [eexists; split; [reflexivity|]; congruence|].
    destruct (Z.eqb_spec wh 2); [|discriminate]. eexists; split; [reflexivity|]. intros _. reflexivity. }
  destruct St as (base & -> & St). destruct (Z.ltb_spec (base + q) 0) as [Hneg|Hpos]; [discriminate|].
  destruct (Z.ltb_spec (base + q) 0); [lia|]. unfold reset_read_buf, ret. intros [= <- <-]. split; [lia|]. split; [exact St|].
  exists (set_pos o (base + q)). split.
  - apply rep_rbuf; cbn [set_world b_raw b_w b_wbuf b_size]; auto.
    + now apply live_pos.
    + discriminate.
    + rewrite len_nil. cbn [o_pos set_pos]. lia.
    + apply slice_nil.
  - eapply evolves_trans; [apply evolves_world; [apply sameo_pos|apply frame_fd]|apply evolves_rbuf, sameo_refl].
Qed.
Lemma rep_weak b o i c p : rep BReader b o i c p -> no_epipe (b_w b) -> weak b o i /\ n_data i = c.
Proof.
  intros R Io. pose proof (rp_nowr _ _ _ _ _ _ R eq_refl) as W. destruct (rep_flat _ _ _ _ _ _ R W) as [Hc _].
  split; [|auto]. destruct R. constructor; auto.
Qed.

(** * While the place is known *)
Lemma read_unlocked_max n b r b' : 0 <= n -> read_unlocked (Some n) b = (Ok (Some r), b') -> len r <= n.
Proof.
  intros Hn. unfold read_unlocked. destruct (Z.eqb_spec n (-1)); [lia|]. destruct (Z.leb_spec n (Z.of_nat (length (unread b)))) as [H|H].
  - intros E. injection E as <- _. rewrite len_firstn. unfold len. lia.
  - unfold bind at 1. destruct (read_fuel b) as [[fuel|e] b1]; [|discriminate]. unfold bind at 1. destruct (fill_loop _ _ _ _ _) as [[[out nd]|e] b2] eqn:Ef; [|discriminate].
    assert (Nd : nd = None \/ nd = Some []).
    { revert Ef. generalize (unread b) as o0. revert b1. induction fuel as [|fuel IH]; intros b1 o0; cbn [fill_loop]; [discriminate|].
      destruct (_ <? n); [|now intros [= <- <- <-]; auto]. unfold bind. destruct (on_raw _ b1) as [[[[|x d]|]|e] b3]; intros E.
      - injection E as <- <- <-. auto.
      - eapply IH; eauto.
      - injection E as <- <- <-. auto.
      - discriminate. }
    unfold bind, ret. intros E. destruct out as [|x out].
    + destruct Nd as [-> | ->]; [discriminate|]. injection E as <- _. rewrite len_nil. lia.
    + injection E as <- _. set (out1 := x :: out). rewrite len_firstn. unfold len. lia.
Qed.

Lemma peek_fail b o i c p n : rep BReader b o i c p -> no_epipe (b_w b) ->
  exists r b' o', peek_unlocked n b = (r, b') /\ evolves b b' o o' /\ rep BReader b' o' i c p
    /\ ((exists d, r = Ok d /\ d = unread b') \/ (exists e, r = Err (EOS e))).
Proof.
  intros R Hp. pose proof (rp_nowr _ _ _ _ _ _ R eq_refl) as W. pose proof (rep_flat _ _ _ _ _ _ R W) as [Hc Ho].
  pose proof (rp_live _ _ _ _ _ _ R) as L. pose proof (rp_rd _ _ _ _ _ _ R eq_refl) as Rf.
  pose proof (rp_nn _ _ _ _ _ _ R) as Pn. pose proof (len_nonneg (unread b)) as Lu.
  pose proof (rp_slice _ _ _ _ _ _ R) as Sl. pose proof (rp_size _ _ _ _ _ _ R) as Bs.
  unfold peek_unlocked. unfold bind at 1. fold (len (unread b)).
  destruct ((len (unread b) <? Z.min n (b_size b)) || (len (unread b) <=? 0)) eqn:Ec.
  2:{ eexists _, b, o. split; [reflexivity|]. split; [auto with frame|]. split; [exact R|]. left. eauto. }
  assert (Lt : 0 < b_size b - len (unread b)).
  { apply orb_true_iff in Ec as [Ec|Ec]; [apply Z.ltb_lt in Ec; lia|apply Z.leb_le in Ec; lia]. }
  unfold bind at 1, on_raw.
  destruct (raw_read_cases True _ _ o i (b_size b - len (unread b)) L ltac:(lia) Hp ltac:(left; auto) Rf)
    as (r & w1 & -> & [(d & -> & Hd1 & Hd2 & Hd3 & ->)|(_ & Hr & Hw)]).
  - pose proof (lv_pos _ _ _ _ L) as P0. pose proof (len_nonneg d) as Ld.
    set (w1 := upd_fd _ _ _). set (o1 := set_pos o (o_pos o + len d)).
    assert (L1 : live (b_raw b) w1 o1 i) by (unfold w1, o1; apply live_pos; [now apply live_io|lia]).
    assert (V1 : evolves b (set_world b w1) o o1).
    { apply evolves_world; [apply sameo_pos|]. eapply frame_trans; [apply frame_io|apply frame_fd]. }
    rewrite Hc in Hd2, Hd3. destruct d as [|x d].
    + eexists _, (set_world b w1), o1. split; [reflexivity|]. split; [exact V1|].
      split; [|left; eauto]. destruct R. constructor; cbn [set_world b_raw b_w b_size b_rbuf b_rpos b_wbuf]; auto.
      * now rewrite W, !write_at_nil.
      * rewrite epos_clean by exact W. rewrite (epos_clean _ _ _ W) in rp_p. unfold o1. cbn [o_pos set_pos]. change (unread (set_world b w1)) with (unread b). rewrite rp_p. rewrite len_nil. lia.
    + set (d1 := x :: d) in *. eexists _, (set_rbuf (set_world b w1) (unread b ++ d1) 0)%list, o1.
      split; [reflexivity|]. split; [eapply evolves_trans; [exact V1|apply evolves_rbuf, sameo_refl]|].
      split; [|left; eauto].
      pose proof (rp_wr _ _ _ _ _ _ R) as Wr.
      apply rep_rbuf; cbn [set_world b_raw b_w b_wbuf b_size]; auto.
      * unfold o1. cbn [o_pos set_pos]. rewrite len_app. lia.
      * apply slice_app; auto. now rewrite <- Ho.
  - assert (X : live (b_raw b) w1 o i /\ frame (fd_of (b_raw b)) (o_uid o) (b_w b) w1).
    { destruct Hw as [-> | ->]; split; auto with frame. now apply live_io. }
    destruct X as (L1 & F1). pose proof (evolves_world b w1 o o (sameo_refl o) F1) as V1.
    pose proof (rep_world _ _ _ _ _ _ w1 R L1) as R1.
    destruct Hr as [-> | (e & ->)]; eexists _, (set_world b w1), o; (split; [reflexivity|]); (split; [exact V1|]); (split; [exact R1|]); eauto.
Qed.

Lemma seek_reader b o i c p off wh : rep BReader b o i c p ->
  exists r b' o', b_seek BReader off wh b = (r, b') /\ evolves b b' o o'
  /\ ((exists t, seek_target c p off wh = Some t /\ 0 <= t /\ r = Ok t /\ rep BReader b' o' i c t)
     \/ (exists t, seek_target c p off wh = Some t /\ t < 0 /\ r = Err (EOS EINVAL) /\ rep BReader b' o' i c p)
     \/ (seek_target c p off wh = None /\ r = Err EValue /\ rep BReader b' o' i c p)).
Proof.
  intros R. unfold b_seek. destruct (valid_whence wh) eqn:Vw; cbn [negb].
  2:{ exists (Err EValue), b, o. split; [reflexivity|]. split; [auto with frame|]. right. right.
      rewrite (valid_whence_target _ _ _ _ Vw). auto. }
  unfold bind at 1. rewrite (check_closed_rep _ _ _ _ _ _ R).
  pose proof (rp_nowr _ _ _ _ _ _ R eq_refl) as W. pose proof (rep_flat _ _ _ _ _ _ R W) as [Hc Ho].
  pose proof (rp_live _ _ _ _ _ _ R) as L. pose proof (len_nonneg (unread b)) as Lu.
  unfold mixin_seek, bind, on_raw. rewrite (raw_seek_live _ _ _ _ _ _ L).
  set (q := if wh =? 1 then off - Z.of_nat (length (unread b)) else off).
  assert (St : exists base, seek_base o i wh = Some base /\ seek_target c p off wh = Some (base + q)).
  { unfold seek_base, seek_target, valid_whence, q in *. rewrite Ho, Hc. fold (len (unread b)).
    destruct (Z.eqb_spec wh 0) as [-> |]; [cbn; eexists; split; [reflexivity|f_equal; lia]|].
    destruct (Z.eqb_spec wh 1); [eexists; split; [reflexivity|f_equal; lia]|].
    destruct (Z.eqb_spec wh 2); [|discriminate]. eexists; split; [reflexivity|f_equal; lia]. }
  destruct St as (base & -> & St).
  destruct (Z.ltb_spec (base + q) 0) as [Hneg|Hpos].
  + rewrite set_world_same. eexists _, _, o. split; [reflexivity|]. split; [auto with frame|]. right. left. eauto 6.
  + destruct (Z.ltb_spec (base + q) 0); [lia|]. unfold reset_read_buf, ret.
    eexists _, _, (set_pos o (base + q)). split; [reflexivity|].
    split. { eapply evolves_trans; [apply evolves_world; [apply sameo_pos|apply frame_fd]|apply evolves_rbuf, sameo_refl]. }
    left. exists (base + q). split; [exact St|]. split; [lia|]. split; [reflexivity|].
    eapply rep_bare; eauto with frame. now apply live_pos.
Qed.

Lemma fstep_ok b o i c p op : rep BReader b o i c p -> no_epipe (b_w b) ->
  forall out b', run_bop BReader op b = (out, b') ->
  exists o', evolves b b' o o' /\
    ((exists p', rep BReader b' o' i c p' /\ fstep c (Some p) op out (Some p')) \/ (weak b' o' i /\ fstep c (Some p) op out None)).
Proof.
  intros R Hp out b' E. assert (T : tameb True b o) by (left; auto).
  pose proof (rp_nowr _ _ _ _ _ _ R eq_refl) as W. pose proof (rp_nn _ _ _ _ _ _ R) as Pn.
  destruct (rep_weak _ _ _ _ _ R Hp) as [Wk Hc].
  destruct op; cbn [run_bop b_read b_read1 b_peek b_write b_truncate] in E.
  - unfold reader_read in E.
    destruct (match n with Some k => k <? -1 | None => false end) eqn:Em.
    { cbn in E. injection E as <- <-. exists o. split; [auto with frame|]. left. exists p. split; [exact R|].
      destruct n as [n|]; [|discriminate]. apply Z.ltb_lt in Em. now apply FS_ok, BA_read_bad. }
    assert (X : exists r b1 o1, read_unlocked n b = (r, b1) /\ evolves b b1 o o1 /\ b_wbuf b1 = []
      /\ exists good, got True BReader b1 o1 i c p r good).
    { destruct n as [n|].
      - apply Z.ltb_ge in Em. destruct (Z.eq_dec n (-1)) as [->|].
        + destruct (read_all_ok True BReader b o i c p R T Hp eq_refl W (Some (-1)) ltac:(auto)) as (r & b1 & o1 & E1 & V1 & W1 & G). eauto 9.
        + destruct (read_n_ok True BReader b o i c p n R T Hp eq_refl W ltac:(lia)) as (r & b1 & o1 & E1 & V1 & W1 & G). eauto 9.
      - destruct (read_all_ok True BReader b o i c p R T Hp eq_refl W None ltac:(auto)) as (r & b1 & o1 & E1 & V1 & W1 & G). eauto 9. }
    destruct X as (r & b1 & o1 & E1 & V1 & W1 & good & G). rewrite E1 in E.
    assert (Mx : forall d, r = Ok (Some d) -> forall z, n = Some z -> 0 <= z -> len d <= z).
    { intros d -> z -> Hz. eapply read_unlocked_max; eauto. }
    destruct G as [(d & R1 & S1 & [(-> & _)|(_ & -> & ->)])|(_ & e & ->)]; cbn in E; injection E as <- <-.
    + exists o1. split; [exact V1|]. left. exists (p + len d). split; [exact R1|]. apply FS_short; auto.
    + exists o1. split; [exact V1|]. left. rewrite len_nil, Z.add_0_r in R1. exists p. split; [exact R1|]. apply FS_none.
    + destruct (kept_read_unlocked n b o i Wk) as (r2 & b2 & o2 & E2 & W2 & V2). rewrite E1 in E2. injection E2 as _ <-.
      exists o2. split; [exact V2|]. right. split; [exact W2|apply FS_read_fail].
  - unfold reader_read1 in E. unfold bind at 1 in E. rewrite (check_closed_rep _ _ _ _ _ _ R) in E.
    pose proof (rp_size _ _ _ _ _ _ R) as Bs.
    set (m := if n <? 0 then b_size b else n) in E.
    assert (Hm : 0 <= m /\ (0 <= n -> m = n) /\ (m = 0 -> n = 0)).
    { unfold m. destruct (Z.ltb_spec n 0); repeat split; lia. }
    destruct Hm as (Hm0 & Hm1 & Hm2). clearbody m.
    destruct (Z.eqb_spec m 0) as [E0|Hm].
    { cbn in E. injection E as <- <-. exists o. split; [auto with frame|]. left. exists p. split; [exact R|]. apply (FS_nothing c p _ n). auto. }
    unfold bind in E. destruct (peek_fail b o i c p 1 R Hp) as (r & b1 & o1 & E1 & V1 & R1 & C1). rewrite E1 in E.
    destruct C1 as [(d & -> & ->)|(e & ->)].
    2:{ cbn in E. injection E as <- <-. exists o1. split; [exact V1|]. left. exists p. split; [exact R1|]. apply FS_fail. now intros (z & X). }
    set (q := Z.min m (Z.of_nat (length (unread b1)))) in E.
    assert (Hq : 0 <= q <= Z.of_nat (length (unread b1)) /\ q <= m) by (unfold q; lia).
    assert (Hq0 : q = 0 -> unread b1 = []) by (unfold q; intros X; destruct (unread b1); [reflexivity|cbn in X; lia]).
    clearbody q. unfold read_unlocked in E. destruct (Z.eqb_spec q (-1)); [lia|]. rewrite (proj2 (Z.leb_le q _)) in E by lia.
    cbn in E. injection E as <- <-. exists o1. split; [eapply evolves_trans; [exact V1|apply evolves_rbuf, sameo_refl]|]. left.
    set (d := firstn (Z.to_nat q) (unread b1)).
    assert (Hl : len d = q) by (unfold d; rewrite len_firstn; unfold len; lia).
    exists (p + q). split.
    { replace q with (Z.of_nat (Z.to_nat q)) at 2 by lia. apply rep_consume; auto; [lia|]. apply (rp_nowr _ _ _ _ _ _ R1 eq_refl). }
    destruct d as [|x d1] eqn:Ed.
    + rewrite len_nil in Hl. rewrite <- Hl, Z.add_0_r. apply (FS_nothing c p _ n). auto.
    + rewrite <- Hl. apply FS_ok, BA_read1; auto.
      * intros Hn. specialize (Hm1 Hn). lia.
      * rewrite <- Ed. apply slice_first, (rp_slice _ _ _ _ _ _ R1).
      * discriminate.
  - unfold reader_peek in E. unfold bind in E. rewrite (check_closed_rep _ _ _ _ _ _ R) in E.
    destruct (peek_fail b o i c p n R Hp) as (r & b1 & o1 & E1 & V1 & R1 & C1). rewrite E1 in E.
    destruct C1 as [(d & -> & ->)|(e & ->)]; cbn in E; injection E as <- <-; exists o1; (split; [exact V1|]); left; exists p; (split; [exact R1|]).
    + pose proof (rp_slice _ _ _ _ _ _ R1) as S1. destruct (unread b1) as [|x d]; [apply (FS_nothing c p _ n); auto|].
      apply FS_ok, BA_peek; auto. discriminate.
    + apply FS_fail. now intros (z & X).
  - cbn in E. injection E as <- <-. exists o. split; [auto with frame|]. left. exists p. split; [exact R|]. apply FS_ok, BA_unwritable; cbn; eauto.
  - destruct (seek_reader b o i c p offset whence R) as (r & b1 & o1 & E1 & V1 & X). rewrite E1 in E.
    destruct X as [(t & St & Ht & -> & R1)|[(t & St & Ht & -> & R1)|(St & -> & R1)]];
      cbn in E; injection E as <- <-; exists o1; (split; [exact V1|]); left.
    + exists t. split; [exact R1|]. now apply FS_ok, BA_seek.
    + exists p. split; [exact R1|]. apply FS_ok. now apply (BA_seek_neg _ _ _ _ _ t).
    + exists p. split; [exact R1|]. now apply FS_ok, BA_seek_bad.
  - destruct (b_tell_ok BReader b o i c p R (epos_clean _ _ _ (rp_nowr _ _ _ _ _ _ R eq_refl))) as (b1 & E1 & R1 & V1 & _). rewrite E1 in E. cbn in E. injection E as <- <-.
    exists o. split; [exact V1|]. left. exists p. split; [exact R1|]. apply FS_ok, BA_tell.
  - unfold b_fsize, b_flush, bind in E. rewrite (check_closed_rep _ _ _ _ _ _ R) in E. unfold on_raw at 1, raw_flush in E.
    rewrite (check_closed_live _ _ _ _ (rp_live _ _ _ _ _ _ R)), set_world_same in E. unfold on_raw in E.
    rewrite (raw_size_live _ _ _ _ (rp_live _ _ _ _ _ _ R)), set_world_same, Hc in E. cbn in E. injection E as <- <-.
    exists o. split; [auto with frame|]. left. exists p. split; [exact R|]. apply FS_ok, BA_size.
  - unfold b_flush, bind in E. rewrite (check_closed_rep _ _ _ _ _ _ R) in E. unfold on_raw, raw_flush in E.
    rewrite (check_closed_live _ _ _ _ (rp_live _ _ _ _ _ _ R)), set_world_same in E. cbn in E. injection E as <- <-.
    exists o. split; [auto with frame|]. left. exists p. split; [exact R|]. apply FS_ok, BA_flush.
  - unfold bind in E. rewrite (check_closed_rep _ _ _ _ _ _ R) in E. cbn in E. injection E as <- <-.
    exists o. split; [auto with frame|]. left. exists p. split; [exact R|]. apply FS_ok, BA_unwritable; cbn; eauto.
Qed.

Definition known (b : bstate) (o : ofd) (i : inode) (s : option Z) : Prop :=
  match s with Some p => rep BReader b o i (n_data i) p /\ no_epipe (b_w b) | None => weak b o i end.
Lemma fruns_ok i : forall ops b o s, known b o i s ->
  forall outs b', run_bops BReader ops b = (outs, b') ->
  exists o' s', known b' o' i s' /\ evolves b b' o o' /\ fruns (n_data i) s ops outs s'.
Proof.
  induction ops as [|op ops IH]; intros b o s K outs b' E; cbn [run_bops] in E.
  - injection E as <- <-. exists o, s. split; [exact K|]. split; [auto with frame|constructor].
  - destruct (run_bop BReader op b) as [out b1] eqn:E1. destruct (run_bops BReader ops b1) as [outs1 b2] eqn:E2.
    injection E as <- <-.
    assert (X : exists o1 s1, known b1 o1 i s1 /\ evolves b b1 o o1 /\ fstep (n_data i) s op out s1).
    { destruct s as [p|].
      - destruct K as [R Io]. destruct (fstep_ok _ _ _ _ _ op R Io out b1 E1) as (o1 & V1 & [(p' & R1 & S1)|(W1 & S1)]).
        + exists o1, (Some p'). split; [|auto]. split; [exact R1|]. eapply no_epipe_evolves; eauto.
        + exists o1, None. auto.
      - cbn in K. destruct (kept_op op b o i K) as (out2 & b2' & o2 & E3 & W2 & V2). rewrite E1 in E3. injection E3 as <- <-.
        assert (D : (exists off wh t, op = BoSeek off wh /\ out = OInt t) \/ (forall off wh t, op = BoSeek off wh -> out <> OInt t)).
        { destruct op; try (right; congruence). destruct out; try (right; congruence). left. eauto. }
        destruct D as [(off & wh & t & -> & ->)|D]; [|exists o2, None; split; [exact W2|]; split; [exact V2|now apply FS_lost]].
        cbn [run_bop] in E1. destruct (b_seek BReader off wh b) as [[t'|e] b3] eqn:Es; cbn in E1; [|discriminate].
        injection E1 as <- <-. destruct (seek_found _ _ _ _ _ _ _ K Es) as (Ht & St & o3 & R3 & V3).
        exists o3, (Some t'). split; [split; [exact R3|eapply no_epipe_evolves; eauto; apply (wk_io _ _ _ K)]|]. split; [exact V3|]. now apply FS_found. }
    destruct X as (o1 & s1 & K1 & V1 & S1). destruct (IH b1 o1 s1 K1 outs1 b2 E2) as (o2 & s2 & K2 & V2 & S2).
    exists o2, s2. split; [exact K2|]. split; [eapply evolves_trans; eauto|econstructor; eauto].
Qed.

(** The reads of a buffered reader fail, or would block, at will (EPIPE, which reads as the
    end of the file, apart).  Failed peek(), read1(), seek() and tell() can be tried again: no byte
    is skipped or given twice.  After a failed read() the place is lost until the next
    successful seek().  The file never changes. *)
Theorem C64_failing_reads_partial : forall f size ops w o i outs b',
  live f w o i -> 0 < size -> f_readable f = true -> ~ In (IoErr EPIPE) (w_io w) ->
  run_bops BReader ops (fresh f size w) = (outs, b') ->
  (exists s, fruns (n_data i) (Some (o_pos o)) ops outs s) /\ w_inodes (b_w b') (o_uid o) = Some i.
Proof.
  intros f size ops w o i outs b' L S Rf Io E.
  assert (R : rep BReader (fresh f size w) o i (n_data i) (o_pos o)) by (apply fresh_rep; auto; discriminate).
  destruct (fruns_ok i ops (fresh f size w) o (Some (o_pos o)) ltac:(split; [exact R|exact Io]) outs b' E) as (o' & s & K & V & X).
  split; [eauto|]. assert (L' : live (b_raw b') (b_w b') o' i) by (destruct s; [apply (rp_live _ _ _ _ _ _ (proj1 K))|apply (wk_live _ _ _ K)]).
  rewrite <- (so_uid _ _ (ev_o _ _ _ _ V)). apply (lv_ino _ _ _ _ L').
Qed.

(** read(n) whose first system call fails can be tried again too. *)
Theorem C64_first_failure_harmless_partial : forall b n x io, 0 <= n -> f_closed (b_raw b) = false -> f_readable (b_raw b) = true ->
  (forall o, w_fds (b_w b) (fd_of (b_raw b)) = Some o -> o_rd o = true) ->
  (exists o i, w_fds (b_w b) (fd_of (b_raw b)) = Some o /\ w_inodes (b_w b) (o_uid o) = Some i /\ n_kind i = KReg) ->
  0 < b_size b -> Z.of_nat (length (unread b)) < n -> w_io (b_w b) = IoErr x :: io -> x <> EAGAIN -> x <> EPIPE ->
  b_read BReader (Some n) b = (Err (EOS x), set_world b (set_io (b_w b) io)).
Proof.
  intros b n x io Hn Hc Rf Rd (o & i & Fd & In & Kd) Bs Hu Ei N1 N2.
  unfold b_read, reader_read. destruct (Z.ltb_spec n (-1)); [lia|]. unfold read_unlocked.
  destruct (Z.eqb_spec n (-1)); [lia|]. destruct (Z.leb_spec n (Z.of_nat (length (unread b)))); [lia|].
  unfold bind at 1, read_fuel, bind at 1, on_raw, readall_fuel. rewrite Fd, In, set_world_same. unfold ret at 1.
  unfold bind at 1. cbn [fill_loop]. rewrite (proj2 (Z.ltb_lt _ _) Hu). unfold bind at 1, on_raw.
  unfold raw_read, bind, check_readable, check_closed, bind, check_closed, ret. rewrite Hc, Rf.
  destruct (Z.ltb_spec (Z.max (b_size b) n) 0); [lia|].
  unfold inner_read, sys_read, bind, get_fd. rewrite Fd, In, (Rd _ Fd), Kd. cbn [negb].
  destruct (Z.ltb_spec (Z.max (b_size b) n) 0); [lia|]. unfold next_io, raise. rewrite Ei.
  destruct (Z.eqb_spec x EAGAIN); [congruence|]. destruct (Z.eqb_spec x EPIPE); [congruence|]. reflexivity.
Qed.

(** No failure loses the place: false.  read(4) has one byte in the buffer, gets two
    more, then the next system call fails; the next read gives the byte that was in
    the buffer and then those after the two. *)
Definition failures_lose_nothing : Prop := forall f size ops w o i outs b',
  live f w o i -> o_app o = false -> 0 < size -> f_readable f = true -> ~ In (IoErr EPIPE) (w_io w) ->
  run_bops BReader ops (fresh f size w) = (outs, b') ->
  exists p, gruns (n_data i) (o_pos o) ops outs p.
Lemma gruns_inv c s op ops out outs s2 : gruns c s (op :: ops) (out :: outs) s2 -> exists s1, gstep c s op out s1 /\ gruns c s1 ops outs s2.
Proof. intros H. inversion H; subst. eauto. Qed.
Lemma gstep_bytes c p n d p' : gstep c p (BoRead n) (OBytes d) p' -> slice_at c p d /\ p' = p + len d.
Proof.
  intros H. inversion H as [? ? ? ? F|]; subst. inversion F as [? ? ? ? B| | | |? ? ? N| | |]; subst; auto.
  - inversion B; subst; auto. match goal with X : rest_from _ _ _ |- _ => destruct X as [_ X]; auto end.
  - match goal with X : _ \/ _ |- _ => destruct X; discriminate end.
Qed.
Lemma gstep_err c p n e p' : gstep c p (BoRead n) (OErr (EOS e)) p' -> p' = p.
Proof.
  intros H. inversion H as [? ? ? ? F|]; subst; auto. inversion F as [? ? ? ? B| | | |? ? ? N| | |]; subst; auto.
  inversion B; subst; auto.
Qed.

Definition lossy_demo : rawio * world := demo_open "f" true false false (demo [1;2;3;4;5;6] [IoFull; IoFull; IoShort 2; IoErr 5; IoFull] [] []).
Theorem C64_lost_bytes_refuted : ~ failures_lose_nothing.
Proof.
  intros H. destruct lossy_demo as [f w] eqn:Ed.
  assert (X : exists o i, live f w o i /\ o_app o = false /\ f_readable f = true /\ ~ In (IoErr EPIPE) (w_io w) /\ n_data i = [1;2;3;4;5;6] /\ o_pos o = 0).
  { vm_compute in Ed. injection Ed as <- <-. eexists _, _. split; [constructor; vm_compute; try reflexivity; discriminate|].
    cbn. intuition discriminate. }
  destruct X as (o & i & L & A & Rf & Io & Dt & Ps).
  set (ops := [BoRead (Some 1); BoRead (Some 4); BoRead (Some 2)]).
  destruct (run_bops BReader ops (fresh f 2 w)) as [outs b'] eqn:E.
  specialize (H f 2 ops w o i outs b' L A ltac:(lia) Rf Io E). rewrite Dt, Ps in H.
  assert (outs = [OBytes [1]; OErr (EOS 5); OBytes [2; 5]]) as ->.
  { vm_compute in Ed. injection Ed as <- <-. vm_compute in E. injection E as <- _. reflexivity. }
  destruct H as (s & H). apply gruns_inv in H as (p1 & H1 & H). apply gruns_inv in H as (p2 & H2 & H). apply gruns_inv in H as (p3 & H3 & _).
  apply gstep_bytes in H1 as [_ ->]. apply gstep_err in H2 as ->. apply gstep_bytes in H3 as [[_ H3] _].
  specialize (H3 1 ltac:(cbn; lia)). vm_compute in H3. discriminate.
Qed.

(** And read() drops the bytes in the buffer even if its first system call fails. *)
Example C64_example :
  let '(f, w) := lossy_demo in
  let '(f2, w2) := demo_open "f" true false false (demo [1;2;3;4;5;6] [IoFull; IoFull; IoErr 5; IoErr 5; IoFull] [] []) in
  fst (run_bops BReader [BoRead (Some 1); BoRead (Some 4); BoRead (Some 2); BoTell] (fresh f 2 w)) = [OBytes [1]; OErr (EOS 5); OBytes [2; 5]; OInt 5]
  /\ fst (run_bops BReader [BoRead (Some 1); BoRead None; BoRead None] (fresh f2 2 w2)) = [OBytes [1]; OErr (EOS 5); OErr (EOS 5)]
  /\ fst (run_bops BReader [BoRead (Some 1); BoRead None; BoRead (Some 0); BoTell] (fresh f2 2 w2)) = [OBytes [1]; OErr (EOS 5); OBytes []; OInt 2]
  /\ fst (run_bops BReader [BoRead (Some 1); BoRead (Some 3); BoRead (Some 3); BoRead (Some 3)] (fresh f2 2 w2)) = [OBytes [1]; OErr (EOS 5); OErr (EOS 5); OBytes [2;3;4]]
  /\ fst (run_bops BReader [BoRead (Some 1); BoRead (Some 1); BoPeek 1; BoRead1 5; BoRead (Some 3)] (fresh f2 2 w2)) = [OBytes [1]; OBytes [2]; OErr (EOS 5); OErr (EOS 5); OBytes [3;4;5]]
  /\ fst (run_bops BReader [BoRead (Some 1); BoRead (Some 4); BoSeek 1 0; BoRead (Some 2)] (fresh f 2 w)) = [OBytes [1]; OErr (EOS 5); OInt 1; OBytes [2; 3]].
Proof. vm_compute. auto 10. Qed.

Print Assumptions C64_failing_reads_partial.
Print Assumptions C64_first_failure_harmless_partial.
Print Assumptions C64_lost_bytes_refuted.
