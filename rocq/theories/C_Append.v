(** Final theorems about buffered streams in append mode: C68. *)
From Coq Require Import ZArith Ascii String List Bool Lia.
From Verif Require Import M_Base M_Modes M_Registry M_Kernel M_World M_Raw M_Buffered S_Bytes S_Raw S_Buffered S_Append S_Demo
  P_Bytes P_Raw P_Buffered P_BufOps P_BufRun C_Buffered.
Import ListNotations.
Open Scope Z_scope.

(** A raw stream [f] on a regular file that appends, with a buffer of any positive size
    put on it.  System calls may handle fewer bytes than asked but do not fail.  Nobody else
    writes to the file meanwhile (that case: C37). *)
Record appending (k : bkind) (f : rawio) (size : Z) (w : world) (o : ofd) (i : inode) : Prop := mkAppending {
  ap_live : live f w o i;
  ap_app : o_app o = true;
  ap_size : 0 < size;
  ap_rd : (k <> BWriter -> f_readable f = true) /\ (f_readable f = true -> o_rd o = true);
  ap_wr : (k <> BReader -> f_writable f = true) /\ (f_writable f = true -> o_wr o = true);
  ap_io : forall e, ~ In (IoErr e) (w_io w) }.

Lemma appending_rep k f size w o i : appending k f size w o i ->
  rep k (fresh f size w) o i (n_data i) (o_pos o) /\ tameb False (fresh f size w) o /\ no_epipe w.
Proof.
  intros [L A S [R1 R2] [W1 W2] Io]. split; [|split].
  - apply fresh_rep; auto; intros K; [apply R1|apply W1]; destruct k; discriminate.
  - right. split; [exact Io|]. split; auto.
  - intros X. eapply Io; eauto.
Qed.

Lemma lag_clean b o i : b_wbuf b = [] -> lagof b o i = 0.
Proof. intros W. unfold lagof. rewrite (epos_clean _ _ _ W). lia. Qed.

(** tell() *)
Lemma tell_lag k b o i c p : rep k b o i c p ->
  exists b', b_tell k b = (Ok (p - lagof b o i), b') /\ rep k b' o i c p /\ evolves b b' o o
    /\ b_rbuf b' = b_rbuf b /\ b_wbuf b' = b_wbuf b.
Proof.
  intros R. destruct (list_eq_dec Z.eq_dec (b_wbuf b) []) as [W|W].
  { destruct (b_tell_ok k b o i c p R (epos_clean _ _ _ W)) as (b' & E & R' & V & Er & _ & Ew). rewrite (lag_clean _ _ _ W), Z.sub_0_r. eauto 8. }
  destruct (mixin_tell_ok _ _ _ _ _ _ R) as (w' & E & L' & F).
  exists (set_world b w'). split; [|split; [exact (rep_world _ _ _ _ _ _ w' R L')|]; split; [apply evolves_world; auto with frame|]; auto].
  pose proof (rp_excl _ _ _ _ _ _ R W) as Er.
  assert (Ewr : writer_tell b = (Ok (p - lagof b o i), set_world b w')).
  { unfold writer_tell, bind. rewrite E. cbn [set_world b_wbuf]. f_equal. f_equal.
    rewrite (rp_p _ _ _ _ _ _ R), (unread_nil _ Er), len_nil. unfold lagof, len. lia. }
  destruct k; unfold b_tell; auto.
  - pose proof (rp_nowr _ _ _ _ _ _ R eq_refl). contradiction.
  - destruct (b_wbuf b); [contradiction|exact Ewr].
Qed.

(** Calls that are not refused leave nothing in the write buffer. *)
Lemma call_lag k b o i c p op clean : rep k b o i c p -> tameb False b o -> no_epipe (b_w b) -> clean_ok k clean b ->
  ~ is_write op -> ~ asks_position (bacc_of k) op ->
  forall out b' rest, run_bop k op b = (out, b') -> (k = BRandom -> disciplined clean ((op, out) :: rest)) ->
  b_wbuf b' = [] \/ (b' = b /\ exists e, out = OErr e).
Proof.
  intros R T Hp Cl Nw Np out b' rest E D.
  destruct op; cbn [run_bop] in E.
  - destruct (can_read k) eqn:K.
    2:{ destruct k; try discriminate. cbn in E. injection E as <- <-. eauto. }
    destruct (Z_lt_dec (match n with Some n => n | None => 0 end) (-1)) as [Hneg|Hok].
    + destruct n as [n|]; [|lia].
      destruct (preflush k b o i c p (reader_read (Some n)) R T K) as (b1 & o1 & i1 & E1 & R1 & V1 & W1).
      assert (E0 : b_read k (Some n) b = (Err EValue, b1)).
      { transitivity (reader_read (Some n) b1).
        - rewrite <- E1. destruct k; [reflexivity|discriminate|reflexivity].
        - unfold reader_read. destruct (Z.ltb_spec n (-1)); [reflexivity|lia]. }
      rewrite E0 in E. cbn in E. injection E as <- <-. auto.
    + destruct (b_read_ok k b o i c p n R T Hp K) as (r & b1 & o1 & i1 & E1 & V1 & (d & -> & G & S & R1 & W1)).
      { destruct n; cbn; auto. lia. }
      rewrite E1 in E. cbn in E. injection E as <- <-. auto.
  - destruct (can_read k) eqn:K.
    2:{ destruct k; try discriminate. cbn in E. injection E as <- <-. eauto. }
    destruct (b_read1_ok k b o i c p n R T Hp K) as (r & b1 & o1 & i1 & E1 & V1 & (d & -> & [G1 G2] & S & R1 & W1)).
    rewrite E1 in E. cbn in E. injection E as <- <-. auto.
  - destruct (can_read k) eqn:K.
    2:{ destruct k; try discriminate. cbn in E. injection E as <- <-. eauto. }
    destruct (b_peek_ok k b o i c p n R T Hp K) as (d & b1 & o1 & i1 & E1 & V1 & R1 & W1 & S & G).
    rewrite E1 in E. cbn in E. injection E as <- <-. auto.
  - destruct Nw. now eexists.
  - destruct (valid_whence whence) eqn:Vw.
    2:{ unfold b_seek in E. rewrite Vw in E. cbn in E. injection E as <- <-. eauto. }
    destruct (b_seek_ok False k b o i c p offset whence R T) as (r & b1 & o1 & i1 & E1 & V1 & X).
    rewrite E1 in E. cbn in E.
    destruct X as [(t & St & Ht & -> & R1 & Er & Ew)|[(t & St & Ht & -> & X)|[(St & -> & R1 & Er)|([] & _)]]];
      cbn in E; injection E as <- <-.
    + auto.
    + left. (* the flush came first *)
      pose proof E1 as Eb. unfold b_seek in Eb. rewrite Vw in Eb. cbn [negb] in Eb. destruct k.
      * assert (Hc : b_rbuf b1 = b_rbuf b) by (apply X; discriminate). apply (rp_nowr _ _ _ _ _ _ (proj1 (X ltac:(discriminate))) eq_refl).
      * unfold bind in Eb at 1. destruct (flush_ok False BWriter b o i c p R T) as (r & b2 & o2 & i2 & E2 & [_ _ _ _ _ [(-> & W)|([] & _)]]).
        rewrite E2 in Eb. unfold mixin_seek, bind, on_raw in Eb. destruct (raw_seek (b_raw b2) offset whence (b_w b2)) as [[n|e] w2].
        -- destruct (n <? 0); unfold raise, ret in Eb; injection Eb as _ <-; exact W.
        -- injection Eb as _ <-. exact W.
      * unfold bind in Eb at 1. destruct (flush_ok False BRandom b o i c p R T) as (r & b2 & o2 & i2 & E2 & [R2 _ _ _ _ [(-> & W)|([] & _)]]).
        rewrite E2 in Eb. unfold bind at 1 in Eb. destruct (undo_ok _ _ _ _ _ R2 W) as (w2 & o3 & E3 & _). rewrite E3 in Eb.
        unfold bind, on_raw in Eb. destruct (raw_seek _ offset whence _) as [[n|e] w3].
        -- unfold reset_read_buf in Eb. destruct (n <? 0); unfold raise, ret in Eb; injection Eb as _ <-; exact W.
        -- injection Eb as _ <-. exact W.
    + exfalso. unfold seek_target, valid_whence in *. destruct (whence =? 0); [discriminate|]. destruct (whence =? 1); [discriminate|].
      destruct (whence =? 2); discriminate.
  - destruct Np. now left.
  - destruct (b_flush_ok False k b o i c p R T) as (r & b1 & o1 & i1 & E1 & [R1 V1 _ _ _ [[-> W]|([] & _)]]).
    unfold b_fsize, bind in E. rewrite E1 in E. unfold on_raw in E. rewrite (raw_size_live _ _ _ _ (rp_live _ _ _ _ _ _ R1)) in E.
    cbn in E. injection E as <- <-. auto.
  - destruct (b_flush_ok False k b o i c p R T) as (r & b1 & o1 & i1 & E1 & [R1 V1 _ _ _ [[-> W]|([] & _)]]).
    rewrite E1 in E. cbn in E. injection E as <- <-. auto.
  - (* truncate *)
    assert (Wt : forall s r b2, writer_truncate s b = (r, b2) -> b_wbuf b2 = []).
    { intros s r b2 X. unfold writer_truncate in X. unfold bind at 1 in X.
      destruct (flush_ok False k b o i c p R T) as (r1 & b1 & o1 & i1 & E1 & [_ _ _ _ _ [(-> & W)|([] & _)]]). rewrite E1 in X.
      unfold bind, on_raw, ret in X. destruct s as [x|].
      - destruct (raw_truncate (b_raw b1) (Some x) (b_w b1)) as [r2 w2]. injection X as _ <-. exact W.
      - destruct (raw_tell (b_raw b1) (b_w b1)) as [[x|e] w2]; [|injection X as _ <-; exact W].
        cbn [set_world b_raw b_w] in X. destruct (raw_truncate (b_raw b1) (Some x) w2) as [r2 w3]. injection X as _ <-. exact W. }
    destruct k.
    + cbn in E. unfold bind in E. rewrite (check_closed_rep _ _ _ _ _ _ R) in E. cbn in E. injection E as <- <-. eauto.
    + left. unfold b_truncate in E. destruct (writer_truncate size b) as [r b2] eqn:Ew. destruct r; cbn in E; injection E as _ <-; eauto.
    + left. destruct size as [x|]; [|destruct Np; right; auto].
      unfold b_truncate, bind, ret in E. destruct (writer_truncate (Some x) b) as [r b2] eqn:Ew. destruct r; cbn in E; injection E as _ <-; eauto.
Qed.

Lemma lag_nn k b o i c p : rep k b o i c p -> 0 <= p - lagof b o i.
Proof.
  intros R. destruct (list_eq_dec Z.eq_dec (b_wbuf b) []) as [W|W].
  - rewrite (lag_clean _ _ _ W). pose proof (rp_nn _ _ _ _ _ _ R). lia.
  - pose proof (rp_excl _ _ _ _ _ _ R W) as Er. pose proof (rp_p _ _ _ _ _ _ R) as X. rewrite (unread_nil _ Er), len_nil in X. unfold lagof.
    pose proof (lv_pos _ _ _ _ (rp_live _ _ _ _ _ _ R)). pose proof (len_nonneg (b_wbuf b)). lia.
Qed.
Lemma put_after c p d : d <> [] -> put true c p d = c ++ d /\ after true c p d = len (c ++ d).
Proof. intros H. split; [apply put_end|]. unfold after, wat. rewrite len_app. now destruct d. Qed.

Lemma apstep_ok k b o i c p op clean : rep k b o i c p -> o_app o = true -> tameb False b o -> no_epipe (b_w b) -> clean_ok k clean b ->
  forall out b' rest, run_bop k op b = (out, b') -> (k = BRandom -> disciplined clean ((op, out) :: rest)) ->
  exists o' i' c' p' clean', rep k b' o' i' c' p' /\ evolves b b' o o'
    /\ apstep (bacc_of k) (c, p, lagof b o i) op out (c', p', lagof b' o' i')
    /\ clean_ok k clean' b' /\ (k = BRandom -> disciplined clean' rest).
Proof.
  intros R A T Hp Cl out b' rest E D. pose proof (rp_nn _ _ _ _ _ _ R) as Pn.
  assert (Gen : ~ is_write op -> ~ asks_position (bacc_of k) op -> exists o' i' c' p' clean', rep k b' o' i' c' p' /\ evolves b b' o o'
    /\ apstep (bacc_of k) (c, p, lagof b o i) op out (c', p', lagof b' o' i') /\ clean_ok k clean' b' /\ (k = BRandom -> disciplined clean' rest)).
  { intros Nw Np. assert (St : steady k b o i op).
    { unfold steady. destruct op; auto.
      - destruct Nw. now eexists.
      - destruct Np. now left.
      - destruct size; auto. intros ->. destruct Np. right. auto. }
    destruct (bstep_ok k b o i c p op clean R (or_intror St) T Hp Cl out b' rest E D) as (o' & i' & c' & p' & clean' & R' & V' & S' & Cl' & D').
    exists o', i', c', p', clean'. split; [exact R'|]. split; [exact V'|]. split; [|auto].
    apply AP_call; auto.
    destruct (call_lag k b o i c p op clean R T Hp Cl Nw Np out b' rest E D) as [W|[-> Hx]]; [left; now apply lag_clean|].
    right. split; [|exact Hx].
    pose proof (rp_live _ _ _ _ _ _ R) as L. pose proof (rp_live _ _ _ _ _ _ R') as L'.
    pose proof (lv_fd _ _ _ _ L) as F1. rewrite (lv_fd _ _ _ _ L') in F1. injection F1 as ->.
    pose proof (lv_ino _ _ _ _ L) as F2. rewrite (lv_ino _ _ _ _ L') in F2. injection F2 as ->. reflexivity. }
  destruct op; try (apply Gen; [intros (? & X)|intros [X|(X & _)]]; discriminate).
  - (* write *)
    clear Gen. cbn [run_bop] in E. destruct (can_write k) eqn:K.
    2:{ destruct k; try discriminate. cbn in E. injection E as <- <-.
        exists o, i, c, p, true. split; [exact R|]. split; [auto with frame|]. split; [|split; discriminate]. apply AP_unwritable. reflexivity. }
    destruct (b_write_ok False k b o i c p d R T K) as (r & b1 & o1 & i1 & c1 & p1 & E1 & R1 & V1 & Er & Wn & Lg).
    rewrite A in Wn. destruct Wn; try contradiction. rewrite E1 in E. cbn in E. injection E as <- <-.
    exists o1, i1, (put true c p d), (after true c p d), true. split; [exact R1|]. split; [exact V1|].
    split; [|split; [intros _ _; exact Er|intros X; exact (D X)]].
    destruct (Lg A) as [L|[L|[X _]]]; [| |congruence].
    + destruct d as [|x d]; [|destruct (put_after c p (x :: d) ltac:(discriminate)) as [-> ->]; apply AP_write; auto; discriminate].
      rewrite put_end, app_nil_r. unfold after, wat. rewrite len_nil, Z.add_0_r. apply AP_write_nothing; auto.
    + destruct d as [|x d]; [|destruct (put_after c p (x :: d) ltac:(discriminate)) as [-> ->]; apply AP_write; auto; discriminate].
      rewrite put_end, app_nil_r. unfold after, wat. rewrite len_nil, Z.add_0_r. apply AP_write_nothing; auto. right. rewrite L. cbn [shift]. lia.
  - (* tell *)
    cbn [run_bop] in E. destruct (tell_lag k b o i c p R) as (b1 & E1 & R1 & V1 & Er & Ew). rewrite E1 in E. cbn in E. injection E as <- <-.
    exists o, i, c, p, clean. split; [exact R1|]. split; [exact V1|].
    assert (lagof b1 o i = lagof b o i) as -> by (unfold lagof, epos; now rewrite Ew).
    split; [apply AP_tell|]. split; [|intros Hk; exact (D Hk)]. intros Hk Hc. rewrite Er. auto.
  - (* truncate *)
    destruct size as [n|]; [apply Gen; [intros (? & X)|intros [X|(X & _)]]; discriminate|].
    destruct k.
    + apply Gen; [intros (? & X)|intros [X|(_ & _ & X)]]; discriminate.
    + apply Gen; [intros (? & X)|intros [X|(_ & X & _)]]; discriminate.
    + clear Gen. assert (Er : b_rbuf b = []) by (apply Cl; auto; apply (D eq_refl)).
      cbn [run_bop] in E. unfold b_truncate, bind in E. destruct (tell_lag BRandom b o i c p R) as (b1 & E1 & R1 & V1 & Er1 & Ew1). rewrite E1 in E.
      destruct (writer_truncate_ok False BRandom b1 o i c p (Some (p - lagof b o i)) R1 (tameb_evolves _ _ _ _ _ V1 T) eq_refl ltac:(congruence))
        as (r & b2 & o2 & i2 & E2 & V2 & Er2 & X).
      rewrite E2 in E. unfold trunc_outcome in X. pose proof (lag_nn _ _ _ _ _ _ R) as Ln.
      destruct X as [(Hn & -> & R2)|[(Hn & _)|([] & _)]]; [|lia]. cbn in E. injection E as <- <-.
      eexists o2, i2, _, p, clean. split; [exact R2|]. split; [eapply evolves_trans; eauto|].
      split; [|split; [intros _ _; exact Er2|intros Hk; apply (D Hk)]].
      assert (lagof b2 o2 i2 = 0) as ->.
      { apply lag_clean. unfold writer_truncate in E2. unfold bind at 1 in E2.
        destruct (flush_ok False BRandom b1 o i c p R1 (tameb_evolves _ _ _ _ _ V1 T)) as (r1 & b3 & o3 & i3 & E3 & [_ _ _ _ _ [(-> & W)|([] & _)]]).
        rewrite E3 in E2. unfold bind, on_raw, ret in E2. destruct (raw_truncate _ _ _) as [r3 w3]. injection E2 as _ <-. exact W. }
      apply AP_trunc_here; auto. now apply set_size_resized.
Qed.

Lemma apruns_ok k : forall ops b o i c p clean, rep k b o i c p -> o_app o = true -> tameb False b o -> no_epipe (b_w b) -> clean_ok k clean b ->
  forall outs b', run_bops k ops b = (outs, b') -> (k = BRandom -> disciplined clean (combine ops outs)) ->
  exists o' i' c' p', rep k b' o' i' c' p' /\ evolves b b' o o' /\ apruns (bacc_of k) (c, p, lagof b o i) ops outs (c', p', lagof b' o' i').
Proof.
  induction ops as [|op ops IH]; intros b o i c p clean R A T Hp Cl outs b' E D; cbn [run_bops] in E.
  - injection E as <- <-. exists o, i, c, p. split; [exact R|]. split; [auto with frame|constructor].
  - destruct (run_bop k op b) as [out b1] eqn:E1. destruct (run_bops k ops b1) as [outs1 b2] eqn:E2.
    injection E as <- <-. cbn [combine] in D.
    destruct (apstep_ok k b o i c p op clean R A T Hp Cl out b1 (combine ops outs1) E1 D)
      as (o1 & i1 & c1 & p1 & clean1 & R1 & V1 & S1 & Cl1 & D1).
    destruct (IH b1 o1 i1 c1 p1 clean1 R1 ltac:(rewrite (so_app _ _ (ev_o _ _ _ _ V1)); exact A) (tameb_evolves _ _ _ _ _ V1 T) (no_epipe_evolves _ _ _ _ V1 Hp) Cl1 outs1 b2 E2 D1)
      as (o2 & i2 & c2 & p2 & R2 & V2 & S2).
    exists o2, i2, c2, p2. split; [exact R2|]. split; [eapply evolves_trans; eauto|econstructor; eauto].
Qed.

(** Whatever the calls, the stream behaves as the machine of S_Append, and flushing makes the file
    that machine's content. *)
Theorem C68_append_refines_partial : forall k f size ops w o i outs b',
  appending k f size w o i ->
  run_bops k ops (fresh f size w) = (outs, b') ->
  (k = BRandom -> disciplined true (combine ops outs)) ->
  exists c p lag, apruns (acc_kind k) (n_data i, o_pos o, 0) ops outs (c, p, lag)
    /\ exists b'', b_flush k b' = (Ok tt, b'') /\ holds_file (b_w b'') (o_uid o) c.
Proof.
  intros k f size ops w o i outs b' S E D. destruct (appending_rep _ _ _ _ _ _ S) as (R & T & P).
  destruct (apruns_ok k ops _ _ _ _ _ true R (ap_app _ _ _ _ _ _ S) T P ltac:(intros _ _; reflexivity) outs b' E D)
    as (o' & i' & c & p & R' & V' & X).
  exists c, p, (lagof b' o' i'). rewrite bacc_acc in X. rewrite (lag_clean (fresh f size w) o i eq_refl) in X. split; [exact X|].
  destruct (b_flush_ok False k b' o' i' c p R' (tameb_evolves _ _ _ _ _ V' T)) as (r & b'' & o'' & i'' & E'' & [R'' V'' _ _ _ [[-> W]|[[] _]]]).
  exists b''. split; [exact E''|]. exists i''. split; [|apply (rep_flat _ _ _ _ _ _ R'' W)].
  rewrite <- (lv_ino _ _ _ _ (rp_live _ _ _ _ _ _ R'')). f_equal.
  now rewrite (so_uid _ _ (ev_o _ _ _ _ V'')), (so_uid _ _ (ev_o _ _ _ _ V')).
Qed.

Lemma apruns_appended a : ba_wr a = true -> forall ops s outs s', apruns a s ops outs s' -> no_truncate ops ->
  fst (fst s') = fst (fst s) ++ handed_over ops.
Proof.
  intros Wr. induction ops as [|op ops IH]; intros s outs s' H N; inversion H; subst.
  - cbn. now rewrite app_nil_r.
  - assert (N' : no_truncate ops) by (intros x Hx; apply (N x); now right).
    match goal with X : apruns _ _ ops _ s' |- _ => rewrite (IH _ _ _ X N'); clear IH H X end.
    assert (Nt : forall x, op <> BoTruncate x) by (intros x ->; apply (N x); now left).
    match goal with X : apstep _ _ _ _ _ |- _ => inversion X; subst; cbn [fst handed_over] end; try congruence.
    + assert (c' = c) as ->.
      { match goal with X : bastep _ _ _ _ _ |- _ => inversion X; subst; auto end; try (exfalso; eapply Nt; reflexivity).
        match goal with X : ~ is_write _ |- _ => destruct X; now eexists end. }
      destruct op; auto. match goal with X : ~ is_write _ |- _ => destruct X; now eexists end.
    + reflexivity.
    + now rewrite app_assoc.
    + exfalso. eapply Nt. reflexivity.
Qed.

(** A log file: whatever is read, asked and sought in between, after a flush the file is what
    it was with all that was written behind it, in order. *)
Theorem C68_all_bytes_at_the_end : forall k f size ops w o i outs b',
  appending k f size w o i -> k <> BReader -> no_truncate ops ->
  run_bops k ops (fresh f size w) = (outs, b') ->
  (k = BRandom -> disciplined true (combine ops outs)) ->
  exists b'', b_flush k b' = (Ok tt, b'') /\ holds_file (b_w b'') (o_uid o) (n_data i ++ handed_over ops).
Proof.
  intros k f size ops w o i outs b' S K N E D.
  destruct (C68_append_refines_partial k f size ops w o i outs b' S E D) as (c & p & lag & X & b'' & Ef & H).
  exists b''. split; [exact Ef|]. apply apruns_appended in X; [|destruct k; [congruence|reflexivity..]|exact N]. cbn [fst] in X. now rewrite <- X.
Qed.

(** * System calls failing *)

Lemma awstep_ok b o i c p op : rep BWriter b o i c p -> o_app o = true ->
  forall out b', run_bop BWriter op b = (out, b') ->
  exists o' i' c' p', rep BWriter b' o' i' c' p' /\ evolves b b' o o' /\ awstep c op out c'.
Proof.
  intros R A out b' E. pose proof (rp_nn _ _ _ _ _ _ R) as Pn. assert (T : tameb True b o) by (left; auto).
  assert (Er : b_rbuf b = []) by apply (rp_nord _ _ _ _ _ _ R eq_refl).
  assert (Oth : forall op out, ~ is_write op -> (forall s, op <> BoTruncate s) -> awstep c op out c) by (intros; now apply AW_other).
  destruct op; cbn [run_bop] in E.
  1-3: cbn in E; injection E as <- <-; exists o, i, c, p; (split; [exact R|]; split; [auto with frame|]); apply Oth; [intros (? & X); discriminate|discriminate].
  - destruct (b_write_ok True BWriter b o i c p d R T eq_refl) as (r & b1 & o1 & i1 & c1 & p1 & E1 & R1 & V1 & _ & Wn & _).
    rewrite A in Wn. rewrite E1 in E. cbn in E. inversion Wn; subst r c1 p1; cbn in E; injection E as <- <-;
      eexists o1, i1, _, _; (split; [exact R1|]; split; [exact V1|]); rewrite ?put_end.
    + apply AW_write.
    + match goal with H : os_or_block _ |- _ => destruct H as [(x & ->)| ->] end; [apply AW_write_none|].
      replace c with (c ++ firstn (Z.to_nat 0) d) at 2 by (cbn; apply app_nil_r). apply AW_write_block. pose proof (len_nonneg d). lia.
    + apply AW_write_all.
    + apply AW_write_block; auto.
  - destruct (b_seek_ok True BWriter b o i c p offset whence R T) as (r & b1 & o1 & i1 & E1 & V1 & X).
    rewrite E1 in E.
    destruct X as [(t & St & Ht & -> & R1 & _)|[(t & St & Ht & -> & X)|[(St & -> & R1 & _)|(_ & (e & -> & He) & R1 & _)]]];
      cbn in E; injection E as <- <-; eexists o1, i1, c, _;
      (split; [first [exact R1|apply X; discriminate]|]; split; [exact V1|]; apply Oth; [intros (? & Y); discriminate|discriminate]).
  - destruct (tell_lag BWriter b o i c p R) as (b1 & E1 & R1 & V1 & _). rewrite E1 in E. cbn in E. injection E as <- <-.
    exists o, i, c, p. split; [exact R1|]. split; [exact V1|]. apply Oth; [intros (? & Y); discriminate|discriminate].
  - destruct (b_fsize_ok True BWriter b o i c p R T) as (r & b1 & o1 & i1 & E1 & R1 & V1 & _ & [[-> _]|(_ & e & -> & He)]);
      rewrite E1 in E; cbn in E; injection E as <- <-; exists o1, i1, c, p; (split; [exact R1|]; split; [exact V1|]);
      (apply Oth; [intros (? & Y); discriminate|discriminate]).
  - destruct (b_flush_ok True BWriter b o i c p R T) as (r & b1 & o1 & i1 & E1 & [R1 V1 _ _ _ [[-> _]|(_ & _ & e & -> & He)]]);
      rewrite E1 in E; cbn in E; injection E as <- <-; exists o1, i1, c, p; (split; [exact R1|]; split; [exact V1|]);
      (apply Oth; [intros (? & Y); discriminate|discriminate]).
  - destruct (b_truncate_ok True BWriter b o i c p size R ltac:(discriminate) T eq_refl Er) as (r & b1 & o1 & i1 & E1 & V1 & _ & X).
    rewrite E1 in E. unfold trunc_outcome in X.
    destruct X as [(Hn & -> & R1)|[(Hn & -> & R1)|(_ & (e & -> & He) & R1)]]; cbn in E; injection E as <- <-;
      eexists o1, i1, _, p; (split; [exact R1|]; split; [exact V1|]).
    + apply AW_trunc; auto; [destruct size; auto|]. now apply set_size_resized.
    + apply AW_trunc_fail.
    + apply AW_trunc_fail.
Qed.
Lemma awruns_ok : forall ops b o i c p, rep BWriter b o i c p -> o_app o = true ->
  forall outs b', run_bops BWriter ops b = (outs, b') ->
  exists o' i' c' p', rep BWriter b' o' i' c' p' /\ evolves b b' o o' /\ awruns c ops outs c'.
Proof.
  induction ops as [|op ops IH]; intros b o i c p R A outs b' E; cbn [run_bops] in E.
  - injection E as <- <-. exists o, i, c, p. split; [exact R|]. split; [auto with frame|constructor].
  - destruct (run_bop BWriter op b) as [out b1] eqn:E1. destruct (run_bops BWriter ops b1) as [outs1 b2] eqn:E2.
    injection E as <- <-. destruct (awstep_ok b o i c p op R A out b1 E1) as (o1 & i1 & c1 & p1 & R1 & V1 & S1).
    destruct (IH b1 o1 i1 c1 p1 R1 ltac:(rewrite (so_app _ _ (ev_o _ _ _ _ V1)); exact A) outs1 b2 E2) as (o2 & i2 & c2 & p2 & R2 & V2 & S2).
    exists o2, i2, c2, p2. split; [exact R2|]. split; [eapply evolves_trans; eauto|econstructor; eauto].
Qed.

Lemma append_pending k b o i c p : rep k b o i c p -> o_app o = true -> c = n_data i ++ b_wbuf b.
Proof.
  intros R A. rewrite (rp_c _ _ _ _ _ _ R). unfold epos. destruct (b_wbuf b) as [|x d] eqn:W.
  - now rewrite write_at_nil, app_nil_r.
  - unfold write_pos. rewrite A. unfold len. rewrite Nat2Z.id. apply write_at_end.
Qed.

(** System calls fail at will: the bytes taken are in the file, in order, up to those still
    pending; the pending ones are the last; a flush keeps it so, and leaves none if it succeeds. *)
Theorem C68_failing_appends : forall f size ops w o i outs b',
  live f w o i -> o_app o = true -> 0 < size -> f_writable f = true ->
  run_bops BWriter ops (fresh f size w) = (outs, b') ->
  exists c, awruns (n_data i) ops outs c
    /\ (exists c0, holds_file (b_w b') (o_uid o) c0 /\ c = c0 ++ b_wbuf b')
    /\ (forall r b'', b_flush BWriter b' = (r, b'') ->
          exists c0, holds_file (b_w b'') (o_uid o) c0 /\ c = c0 ++ b_wbuf b'' /\ (r = Ok tt -> c0 = c)).
Proof.
  intros f size ops w o i outs b' L A S Wf E.
  assert (R : rep BWriter (fresh f size w) o i (n_data i) (o_pos o)) by (apply fresh_rep; auto; discriminate).
  destruct (awruns_ok ops _ _ _ _ _ R A outs b' E) as (o' & i' & c & p & R' & V' & X).
  assert (A' : o_app o' = true) by (rewrite (so_app _ _ (ev_o _ _ _ _ V')); exact A).
  exists c. split; [exact X|]. split.
  - exists (n_data i'). split; [|now apply (append_pending _ _ _ _ _ _ R')]. exists i'. split; [|reflexivity].
    rewrite <- (so_uid _ _ (ev_o _ _ _ _ V')). apply (lv_ino _ _ _ _ (rp_live _ _ _ _ _ _ R')).
  - intros r b'' Ef.
    destruct (b_flush_ok True BWriter b' o' i' c p R' ltac:(left; auto)) as (r2 & b2 & o2 & i2 & E2 & [R2 V2 _ _ _ C2]).
    rewrite Ef in E2. injection E2 as <- <-.
    assert (A2 : o_app o2 = true) by (rewrite (so_app _ _ (ev_o _ _ _ _ V2)); exact A').
    pose proof (append_pending _ _ _ _ _ _ R2 A2) as P.
    exists (n_data i2). split; [|split; [exact P|]].
    + exists i2. split; [|reflexivity]. rewrite <- (so_uid _ _ (ev_o _ _ _ _ V')), <- (so_uid _ _ (ev_o _ _ _ _ V2)).
      apply (lv_ino _ _ _ _ (rp_live _ _ _ _ _ _ R2)).
    + intros ->. destruct C2 as [[_ W]|(_ & _ & e & Y & _)]; [|discriminate]. rewrite W, app_nil_r in P. now symmetry.
Qed.

(** * tell() and truncate() while bytes are pending *)

(** A flush should not change what tell() says. *)
Definition flush_keeps_position : Prop := forall k f size ops w o i outs b' m n,
  appending k f size w o i ->
  run_bops k ops (fresh f size w) = (outs, b') -> (k = BRandom -> disciplined true (combine ops outs)) ->
  fst (run_bops k [BoTell; BoFlush; BoTell] b') = [OInt m; OUnit; OInt n] -> m = n.

Lemma demo_appending k : k <> BReader -> exists f w o i, demo_open "f" true true true (demo [1;2;3] [] [] []) = (f, w)
  /\ appending k f 8 w o i /\ n_data i = [1;2;3] /\ o_uid o = (1, 10).
Proof.
  intros K. eexists _, _, _, _. split; [vm_compute; reflexivity|].
  split; [constructor; [constructor; try reflexivity; cbn; lia|reflexivity|lia|cbn; auto|cbn; auto|intros e []]|split; reflexivity].
Qed.

(** seek(0), write(): the bytes will go to the end, tell() counts them from where the cursor was. *)
Theorem C68_flush_keeps_position_refuted : ~ flush_keeps_position.
Proof.
  intros H. destruct (demo_appending BWriter ltac:(discriminate)) as (f & w & o & i & Eo & S & D & U).
  destruct (run_bops BWriter [BoSeek 0 0; BoWrite [9]] (fresh f 8 w)) as [outs b'] eqn:E.
  specialize (H BWriter f 8 _ w o i outs b' 1 4 S E ltac:(discriminate)).
  vm_compute in Eo. injection Eo as <- <-. vm_compute in E. injection E as <- <-.
  specialize (H ltac:(vm_compute; reflexivity)). discriminate.
Qed.

(** After bytes were appended the cursor is at the end of the file, so truncate() without an
    argument should leave the file as it is, with the new bytes. *)
Definition truncate_here_keeps_appended : Prop := forall k f size w o i d out1 n b',
  appending k f size w o i -> d <> [] ->
  run_bops k [BoSeek 0 0; BoWrite d; BoTruncate None] (fresh f size w) = ([out1; OInt (len d); OInt n], b') ->
  holds_file (b_w b') (o_uid o) (n_data i ++ d).

(** A stream that reads and writes cuts the file where the cursor was: bytes that were in
    the file before are lost along with those just written. *)
Theorem C68_truncate_here_keeps_appended_refuted : ~ truncate_here_keeps_appended.
Proof.
  intros H. destruct (demo_appending BRandom ltac:(discriminate)) as (f & w & o & i & Eo & S & D & U).
  specialize (H BRandom f 8 w o i [9] (OInt 0) 1). rewrite D, U in H. specialize (fun b' => H b' S ltac:(discriminate)).
  vm_compute in Eo. injection Eo as <- <-. specialize (H _ ltac:(vm_compute; reflexivity)).
  destruct H as (i' & Hi & Hd). vm_compute in Hi. injection Hi as <-. discriminate.
Qed.
Lemma seek_keeps a c p off wh out c' p' : bastep a (c, p) (BoSeek off wh) out (c', p') -> c' = c.
Proof. intros H. inversion H; subst; auto. Qed.
Lemma resized_same c c' : resized c (len c) c' -> c' = c.
Proof.
  intros [L G]. apply byte_ext; [exact L|]. intros j Hj. apply G. lia.
Qed.

(** It does leave it with a stream that only writes. *)
Theorem C68_truncate_here_writer : forall f size w o i d out1 n b',
  appending BWriter f size w o i -> d <> [] ->
  run_bops BWriter [BoSeek 0 0; BoWrite d; BoTruncate None] (fresh f size w) = ([out1; OInt (len d); OInt n], b') ->
  n = len (n_data i ++ d)
  /\ exists b'', b_flush BWriter b' = (Ok tt, b'') /\ holds_file (b_w b'') (o_uid o) (n_data i ++ d).
Proof.
  intros f size w o i d out1 n b' S Hd E.
  destruct (C68_append_refines_partial BWriter f size _ w o i _ b' S E ltac:(discriminate)) as (c & p & lag & X & b'' & Ef & Hh).
  assert (Gen : forall s1 s2 s3, apstep (acc_kind BWriter) (n_data i, o_pos o, 0) (BoSeek 0 0) out1 s1 ->
    apstep (acc_kind BWriter) s1 (BoWrite d) (OInt (len d)) s2 -> apstep (acc_kind BWriter) s2 (BoTruncate None) (OInt n) s3 ->
    n = len (n_data i ++ d) /\ fst (fst s3) = n_data i ++ d).
  { intros s1 s2 s3 H1 H2 H3.
    inversion H1; subst. match goal with H : bastep _ _ (BoSeek _ _) _ _ |- _ => apply seek_keeps in H; subst end.
    inversion H2; subst; try contradiction; [match goal with H : ~ is_write _ |- _ => destruct H; now eexists end|].
    inversion H3; subst; [|discriminate].
    match goal with H : bastep _ _ (BoTruncate _) _ _ |- _ => inversion H; subst end.
    match goal with H : resized _ _ _ |- _ => rename H into Hr end. cbn [fst].
    split; [reflexivity|]. now apply resized_same in Hr. }
  inversion X; subst. match goal with H : apruns _ _ [_; _] _ _ |- _ => inversion H; subst; clear H end.
  match goal with H : apruns _ _ [_] _ _ |- _ => inversion H; subst; clear H end.
  match goal with H : apruns _ _ [] _ _ |- _ => inversion H; subst; clear H end.
  edestruct Gen as [Gn Gc]; eauto. cbn [fst] in Gc. split; [exact Gn|]. exists b''. split; [exact Ef|]. now rewrite <- Gc.
Qed.

Example C68_example : (* short counts; a+ *)
  let '(f, w) := demo_open "f" true true true (demo [1;2;3] [IoFull; IoShort 1; IoShort 2; IoShort 1] [] []) in
  let '(outs, b') := run_bops BRandom
     [BoTell; BoSeek 1 0; BoRead (Some 1); BoSeek 0 0; BoWrite [7;8;9;7;8;9;7;8;9]; BoWrite [5]; BoTell; BoSeek (-3) 1; BoRead None; BoSeek 0 0; BoWrite [6]; BoTell; BoSize; BoTell] (fresh f 4 w) in
  outs = [OInt 3; OInt 1; OBytes [2]; OInt 0; OInt 9; OInt 1; OInt 13; OInt 10; OBytes [8;9;5]; OInt 0; OInt 1; OInt 1; OInt 14; OInt 14]
  /\ content (b_w b') (1, 10) = [1;2;3;7;8;9;7;8;9;7;8;9;5;6].
Proof. vm_compute. auto. Qed.

Print Assumptions C68_append_refines_partial.
Print Assumptions C68_all_bytes_at_the_end.
Print Assumptions C68_failing_appends.
Print Assumptions C68_flush_keeps_position_refuted.
Print Assumptions C68_truncate_here_keeps_appended_refuted.
Print Assumptions C68_truncate_here_writer.
