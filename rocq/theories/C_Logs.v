(** Final theorems of C85-C86: streams in append mode on one file, with locks and without. *)
From Coq Require Import ZArith Ascii String List Bool Lia.
From Verif Require Import M_Base M_Modes M_Registry M_Kernel M_World M_Raw M_Buffered M_Waiting M_Threads S_Bytes S_Raw S_Locks S_LockFile
  S_Open S_Buffered S_Append S_Demo S_Sections S_Waiting S_Threads S_Logs P_Bytes P_Raw P_Buffered P_BufOps P_BufRun P_Sections C_Buffered C_Append C_Threads C_Sections C_Waiting.
Import ListNotations.
Open Scope Z_scope.
Open Scope list_scope.

(** The writable streams append. *)
Definition loggers (g : group) : Prop := forall j k, kind_of g j = Some k -> k <> BReader -> app_of g j = true.

Lemma bastep_keeps a c p op out c' p' : bastep a (c, p) op out (c', p') -> ~ is_write op -> (forall s, op <> BoTruncate s) -> c' = c.
Proof.
  intros H W T. inversion H; subst; auto; exfalso; try (apply W; now eexists); eapply T; reflexivity.
Qed.
Lemma opstep_written k app c p op out c' p' : opstep (rights_of k) app (c, p) op out (c', p') ->
  (k <> BReader -> app = true) -> (forall s, op <> BoTruncate s) ->
  c' = match op, out with BoWrite d, OInt _ => c ++ d | _, _ => c end.
Proof.
  intros H Ha T.
  assert (Rd : k = BReader -> c' = match op, out with BoWrite d, OInt _ => c ++ d | _, _ => c end).
  { intros ->. assert (X : c' = c) by (eapply (reader_keeps_any app); exact H). rewrite X. destruct op; auto. destruct out; auto.
    exfalso. cbn [rights_of] in H. inversion H as [s o1 out1 s1 B|c0 p0 lag o1 out1 c1 p1 lag' A]; subst.
    - inversion B; subst; discriminate.
    - inversion A; subst; try discriminate. match goal with W : ~ is_write _ |- _ => apply W; now eexists end. }
  destruct k; auto; specialize (Ha ltac:(discriminate)); subst app; clear Rd.
  all: inversion H as [s o1 out1 s1 B|c0 p0 lag o1 out1 c1 p1 lag' A]; subst; inversion A; subst; auto; try discriminate;
    try (now rewrite app_nil_r); try (exfalso; eapply T; reflexivity).
  all: match goal with B : bastep _ _ ?o ?r (?cc, _), W : ~ is_write ?o |- _ =>
         assert (cc = c) as -> by (eapply bastep_keeps; eauto); destruct o; auto; exfalso; apply W; now eexists end.
Qed.
Lemma wstep_written kind app c ps held a out c' ps' held' : wstep kind app (c, ps, held) a out (c', ps', held') ->
  (forall j k, kind j = Some k -> k <> BReader -> app j = true) -> (forall j s, a <> WAct (GOp j (BoTruncate s))) ->
  c' = written_to c a out.
Proof.
  intros H Ha T. inversion H as [s a0 out0 s' S| | | | |]; subst; auto.
  inversion S as [| |c0 ps0 held0 j k op out1 c1 p1 Kj Hj O| | |]; subst; auto. cbn [written_to].
  pose proof (opstep_written _ _ _ _ _ _ _ _ O (Ha _ _ Kj)) as X. rewrite X.
  - destruct op; auto; destruct out1; auto.
  - intros s ->. eapply T; reflexivity.
Qed.

Lemma wruns_written kind app : (forall j k, kind j = Some k -> k <> BReader -> app j = true) ->
  forall acts outs s s', wruns kind app s acts outs s' -> never_truncates acts ->
  fst (fst s') = after_all written_to (fst (fst s)) acts outs.
Proof.
  intros Ha acts outs s s' R T. induction R as [|s a out s1 acts outs s2 S R IH]; [reflexivity|]. cbn [after_all].
  rewrite IH by (intros j x Hx; eapply T; right; exact Hx). destruct s as [[c ps] held], s1 as [[c1 ps1] held1]. cbn [fst].
  rewrite (wstep_written _ _ _ _ _ _ _ _ _ _ S Ha); auto. intros j x ->. eapply T. now left.
Qed.

(** Streams in append mode, each locking the file around what it writes, lock calls that wait,
    readers, and other processes: in the end the file is what it was, followed by everything
    that was written, in the order of the calls. *)
Theorem C85_logs_concatenate : forall u g c ps acts outs W',
  together u g c ps -> loggers g -> never_truncates acts ->
  (forall d, ~ In (WAct (GData d)) acts) \/ unread_only g ->
  run_wacts u acts (at_rest g) = (outs, W') -> wobeys u nobody (fun _ => true) nobody acts (at_rest g) ->
  (forall j k, kind_of g j = Some k -> after_all wheld_after nobody acts outs j = false) ->
  holds_file (g_world (wg W')) u (after_all written_to c acts outs).
Proof.
  intros u g c ps acts outs W' T Lg Nt Sf E O F.
  destruct (C82_waiting_sections_are_serial_partial u g c ps acts outs W' T Sf E O) as (c' & ps' & R & H & _). cbn zeta in *.
  pose proof (wruns_written _ _ Lg _ _ _ _ R Nt) as X. cbn [fst] in X. rewrite <- X. apply H, F.
Qed.

(** The streams that hold the lock: one, or readers. *)
Definition sole (kind : nat -> option bkind) (held : nat -> bool) : Prop := forall j l k k', kind j = Some k -> kind l = Some k' ->
  j <> l -> held j = true -> held l = true -> k = BReader /\ k' = BReader.
Lemma sole_got kind held j : (forall l k, kind l = Some k -> held l = true -> k = BReader /\ kind j = Some BReader /\ l <> j) ->
  sole kind held -> sole kind (set_at held j true).
Proof.
  intros H S x y k k' Kx Ky Hn Hx Hy. destruct (Nat.eq_dec x j) as [->|Hxj], (Nat.eq_dec y j) as [->|Hyj]; [congruence| | |].
  - rewrite set_at_other in Hy by auto. destruct (H y k' Ky Hy) as (-> & Kj & _). split; congruence.
  - rewrite set_at_other in Hx by auto. destruct (H x k Kx Hx) as (-> & Kj & _). split; congruence.
  - rewrite set_at_other in Hx, Hy by auto. eapply (S x y); eauto.
Qed.
Lemma sole_step kind app c ps held a out c' ps' held' : wstep kind app (c, ps, held) a out (c', ps', held') -> sole kind held -> sole kind held'.
Proof.
  intros H S. inversion H as [s a0 out0 s' Ss| | | | |]; subst; auto; [|now apply sole_got].
  inversion Ss; subst; auto; [now apply sole_got|].
  intros x y k k' Kx Ky Hn Hx Hy. unfold set_at in Hx, Hy. destruct (Nat.eqb x j); [discriminate|]. destruct (Nat.eqb y j); [discriminate|].
  eapply (S x y); eauto.
Qed.

(** What one stream writes while it holds the lock is in one piece. *)
Lemma in_one_piece kind app j k : (forall l k, kind l = Some k -> k <> BReader -> app l = true) -> kind j = Some k -> k <> BReader ->
  forall acts outs s s', wruns kind app s acts outs s' -> never_truncates acts -> sole kind (snd s) -> snd s j = true ->
  ~ In (WAct (GUnlock j)) acts ->
  after_all written_to (fst (fst s)) acts outs = fst (fst s) ++ records j acts outs.
Proof.
  intros Ha Kj Hk acts outs s s' R T. induction R as [|s a out s1 acts outs s2 S R IH]; intros So Hh Un; [symmetry; apply app_nil_r|].
  cbn [after_all]. destruct s as [[c ps] held], s1 as [[c1 ps1] held1]. cbn [fst snd] in *.
  pose proof (wstep_written _ _ _ _ _ _ _ _ _ _ S Ha ltac:(intros l x ->; eapply T; now left)) as X. rewrite <- X.
  rewrite IH; auto.
  - assert (Y : c1 = c ++ match a, out with WAct (GOp l (BoWrite d)), GRes (OInt _) => if Nat.eqb l j then d else [] | _, _ => [] end).
    { rewrite X. destruct a as [a| |]; cbn [written_to]; try (now rewrite app_nil_r).
      destruct a as [| l op| | |d]; try (now rewrite app_nil_r).
      - destruct op; try (now rewrite app_nil_r). destruct out; try (now rewrite app_nil_r). destruct r; try (now rewrite app_nil_r).
        inversion S as [s0 a0 out0 s0' Ss| | | | |]; subst. inversion Ss as [| |c0 ps0 held0 l0 k0 op0 out1 c1' p1 Kl Hl O| | |]; subst.
        destruct (Nat.eqb_spec l j) as [->|Hn]; [reflexivity|].
        destruct (So l j k0 k Kl Kj Hn Hl Hh) as [_ Y]. congruence.
      - exfalso. inversion S as [s0 a0 out0 s0' Ss| | | | |]; subst. inversion Ss as [| | | | |c0 ps0 held0 d0 No]; subst.
        rewrite (No j k Kj) in Hh. discriminate. }
    rewrite Y, <- app_assoc. f_equal. cbn [records]. destruct a as [[]| |]; try reflexivity. destruct op; try reflexivity.
    destruct out; try reflexivity. destruct r; reflexivity.
  - intros l x Hx. eapply T. right. exact Hx.
  - eapply sole_step; eauto.
  - inversion S as [s0 a0 out0 s0' Ss| | | | |]; subst; auto.
    + inversion Ss; subst; auto.
      * unfold set_at. destruct (Nat.eqb j j0); auto.
      * destruct (Nat.eq_dec j j0) as [->|Hn]; [exfalso; apply Un; now left|]. now rewrite set_at_other.
    + unfold set_at. destruct (Nat.eqb j j0); auto.
  - intros Y. apply Un. now right.
Qed.
Lemma wruns_app kind app : forall a1 o1 s a2 o2 s', List.length a1 = List.length o1 -> wruns kind app s (a1 ++ a2) (o1 ++ o2) s' ->
  exists s1, wruns kind app s a1 o1 s1 /\ wruns kind app s1 a2 o2 s'.
Proof.
  induction a1 as [|a a1 IH]; intros [|o o1] s a2 o2 s' L R; try discriminate L.
  - exists s. split; [constructor|exact R].
  - cbn [List.app] in R. inversion R as [|s0 a0 out0 s1 acts outs s2 S R1]; subst. injection L as L.
    destruct (IH o1 s1 a2 o2 s' L R1) as (s3 & A & B). exists s3. split; [eapply WR_cons; eauto|exact B].
Qed.
Lemma wruns_sole kind app acts outs s s' : wruns kind app s acts outs s' -> sole kind (snd s) -> sole kind (snd s').
Proof.
  intros R. induction R as [|s a out s1 acts outs s2 S R IH]; auto. intros So. apply IH.
  destruct s as [[c ps] held], s1 as [[c1 ps1] held1]. eapply sole_step; eauto.
Qed.
Lemma wruns_held kind app acts outs s s' : wruns kind app s acts outs s' -> snd s' = after_all wheld_after (snd s) acts outs.
Proof.
  intros R. induction R as [|s a out s1 acts outs s2 S R IH]; [reflexivity|]. cbn [after_all]. rewrite IH. f_equal.
  inversion S as [s0 a0 out0 s0' Ss| | | | |]; subst; auto. inversion Ss; subst; auto.
Qed.

(** What a stream writes in one section stands in one piece: whatever the others did meanwhile
    (they sleep, or are refused), between taking the lock, after [pre], and a later moment
    without unlocking in between, the content has grown by what this stream wrote. *)
Theorem C85_records_in_one_piece : forall u g c ps pre mid outs1 outs2 W' j k,
  together u g c ps -> loggers g -> never_truncates (pre ++ mid) ->
  (forall d, ~ In (WAct (GData d)) (pre ++ mid)) \/ unread_only g ->
  run_wacts u (pre ++ mid) (at_rest g) = (outs1 ++ outs2, W') -> List.length outs1 = List.length pre ->
  wobeys u nobody (fun _ => true) nobody (pre ++ mid) (at_rest g) ->
  kind_of g j = Some k -> k <> BReader -> after_all wheld_after nobody pre outs1 j = true -> ~ In (WAct (GUnlock j)) mid ->
  after_all written_to c (pre ++ mid) (outs1 ++ outs2) = after_all written_to c pre outs1 ++ records j mid outs2.
Proof.
  intros u g c ps pre mid outs1 outs2 W' j k T Lg Nt Sf E Ln O Kj Hk Hh Un.
  destruct (C82_waiting_sections_are_serial_partial u g c ps _ _ W' T Sf E O) as (c' & ps' & R & _). cbn zeta in *.
  destruct (wruns_app _ _ _ _ _ _ _ _ (eq_sym Ln) R) as (s1 & R1 & R2).
  assert (Nt1 : never_truncates pre) by (intros l x Hx; eapply Nt; apply in_or_app; left; exact Hx).
  assert (Nt2 : never_truncates mid) by (intros l x Hx; eapply Nt; apply in_or_app; right; exact Hx).
  pose proof (wruns_written _ _ Lg _ _ _ _ R1 Nt1) as E1. pose proof (wruns_held _ _ _ _ _ _ R1) as H1. cbn [fst snd] in E1, H1.
  assert (A : forall {A B} (step : A -> B -> gout -> A) pre o1 x mid o2, List.length o1 = List.length pre ->
     after_all step x (pre ++ mid) (o1 ++ o2) = after_all step (after_all step x pre o1) mid o2).
  { clear. intros A B step. induction pre as [|a pre IH]; intros [|o o1] x mid o2 L; try discriminate L; [reflexivity|].
    cbn. apply IH. now injection L. }
  rewrite A by exact Ln. rewrite <- E1. eapply in_one_piece; eauto.
  - eapply wruns_sole; [exact R1|]. intros x y kx ky _ _ _ X. discriminate X.
  - now rewrite H1.
Qed.

(** * Without locks *)

(** Streams in append mode on file [u], just opened. *)
Record appenders (u : uid) (g : group) (c : list Z) : Prop := mkAppenders {
  as_file : holds_file (g_world g) u c /\ exists i, w_inodes (g_world g) u = Some i /\ n_kind i = KReg;
  as_io : forall e, ~ In (IoErr e) (w_io (g_world g));
  as_streams : forall j k b, nth_error (g_streams g) j = Some (k, b) -> k <> BReader /\ exists f size w o,
    b = fresh f size w /\ 0 < size /\ f_closed f = false /\ f_seekable f = true /\ f_writable f = true
    /\ (k = BRandom -> f_readable f = true)
    /\ w_fds (g_world g) (fd_of f) = Some o /\ o_uid o = u /\ o_app o = true /\ o_wr o = true /\ 0 <= o_pos o
    /\ (f_readable f = true -> o_rd o = true);
  as_distinct : forall j l k b k' b', nth_error (g_streams g) j = Some (k, b) -> nth_error (g_streams g) l = Some (k', b') ->
    j <> l -> fd_of (b_raw b) <> fd_of (b_raw b') }.

(** They write and flush; other processes append. *)
Fixpoint just_append (u : uid) (acts : list gact) (g : group) : Prop :=
  match acts with
  | [] => True
  | a :: r => match a with
              | GOp j (BoWrite _) | GOp j BoFlush => kind_of g j <> None
              | GData d => exists e, d = content (g_world g) u ++ e
              | _ => False
              end /\ just_append u r (snd (run_gact u a g))
  end.

Record linv (u : uid) (w : world) (i : inode) (k : bkind) (b : bstate) (pend : list (list Z)) : Prop := mkLinv {
  li_kind : k <> BReader;
  li_rep : exists o p, rep k (set_world b w) o i (n_data i ++ concat pend) p /\ o_uid o = u /\ o_app o = true
             /\ (f_readable (b_raw b) = true -> o_rd o = true) /\ (f_writable (b_raw b) = true -> o_wr o = true);
  li_rbuf : b_rbuf b = [];
  li_wbuf : b_wbuf b = concat pend;
  li_room : len (b_wbuf b) <= b_size b }.
Record lginv (u : uid) (g : group) (c : list Z) (pend : nat -> list (list Z)) (i : inode) : Prop := mkLginv {
  lg_ino : w_inodes (g_world g) u = Some i;
  lg_kind : n_kind i = KReg;
  lg_data : n_data i = c;
  lg_io : forall e, ~ In (IoErr e) (w_io (g_world g));
  lg_streams : forall j k b, nth_error (g_streams g) j = Some (k, b) -> linv u (g_world g) i k b (pend j);
  lg_inj : forall j l k b k' b', nth_error (g_streams g) j = Some (k, b) -> nth_error (g_streams g) l = Some (k', b') ->
             j <> l -> fd_of (b_raw b) <> fd_of (b_raw b') }.

(** Others changed the file. *)
Lemma linv_world u w i k b pend w' i' : linv u w i k b pend ->
  w_fds w' (fd_of (b_raw b)) = w_fds w (fd_of (b_raw b)) -> w_inodes w' u = Some i' -> n_kind i' = KReg ->
  linv u w' i' k b pend.
Proof.
  intros [Hk (o & p & R & Hu & Ha & Hr & Hw) Er Ew Ro] Ef Ei Ek. pose proof (rp_live _ _ _ _ _ _ R) as L.
  assert (L' : live (b_raw b) w' o i').
  { constructor; [rewrite Ef; apply L|rewrite Hu; exact Ei|exact Ek|apply L|apply L|apply L]. }
  set (b' := set_world b w').
  constructor; auto. exists o, (epos b' o i' + len (b_wbuf b)). split; [|auto].
  assert (Un : unread b' = []) by (unfold unread; cbn [b' set_world b_rbuf]; rewrite Er; apply skipn_nil).
  destruct R. cbn [set_world b_raw b_w b_size b_rbuf b_rpos b_wbuf] in *.
  constructor; cbn [b' set_world b_raw b_w b_size b_rbuf b_rpos b_wbuf]; auto.
  - fold b'. rewrite <- Ew. unfold epos. cbn [b' set_world b_wbuf]. destruct (b_wbuf b) as [|x l]; [now rewrite write_at_nil, app_nil_r|].
    unfold write_pos. rewrite Ha. now rewrite write_at_len.
  - fold b'. rewrite Un, len_nil. lia.
  - fold b'. pose proof (epos_nn b' _ _ _ _ L'). pose proof (len_nonneg (b_wbuf b)). lia.
  - fold b'. rewrite Un. apply slice_nil.
Qed.

(** One call. *)
Lemma lstep_op u g c pend i j k b op out b' : lginv u g c pend i -> nth_error (g_streams g) j = Some (k, b) ->
  (exists d, op = BoWrite d) \/ op = BoFlush -> run_bop k op (set_world b (g_world g)) = (out, b') ->
  exists c' pend' i', lstep (c, pend) (GOp j op) (GRes out) (c', pend')
    /\ lginv u (mkGroup (replace j (k, b') (g_streams g)) (b_w b')) c' pend' i'.
Proof.
  intros G N Hop E. pose proof (lg_streams _ _ _ _ _ G _ _ _ N) as S0.
  destruct S0 as [Hk (o & p & R & Hu & Ha & Hr & Hw) Er Ew Ro]. set (b0 := set_world b (g_world g)) in *.
  assert (Kw : can_write k = true) by (destruct k; auto; congruence).
  assert (T : tameb False b0 o) by (right; split; [apply (lg_io _ _ _ _ _ G)|auto]).
  assert (Fin : forall o' i' c' p' pj, rep k b' o' i' c' p' -> evolves b0 b' o o' -> b_rbuf b' = [] -> b_wbuf b' = concat pj ->
     len (b_wbuf b') <= b_size b' -> c' = n_data i' ++ concat pj ->
     lginv u (mkGroup (replace j (k, b') (g_streams g)) (b_w b')) (n_data i') (set_at pend j pj) i').
  { intros o' i' c' p' pj R' V Er' Ew' Ro' Hc. pose proof (ev_frame _ _ _ _ V) as F. pose proof (ev_raw _ _ _ _ V) as Raw. cbn in F, Raw.
    pose proof (ev_o _ _ _ _ V) as So. pose proof (rp_live _ _ _ _ _ _ R') as L'.
    assert (Ei : w_inodes (b_w b') u = Some i').
    { rewrite <- (lv_ino _ _ _ _ L'). f_equal. now rewrite (so_uid _ _ So), Hu. }
    assert (Y : forall x k1 b1, nth_error (replace j (k, b') (g_streams g)) x = Some (k1, b1) ->
              (x = j /\ k1 = k /\ b1 = b') \/ (x <> j /\ nth_error (g_streams g) x = Some (k1, b1))).
    { intros x k1 b1 N1. destruct (Nat.eq_dec x j) as [->|Hx].
      - rewrite (replace_same _ _ _ _ N) in N1. injection N1 as <- <-. auto.
      - rewrite replace_other in N1 by auto. auto. }
    constructor; cbn [g_world g_streams]; auto.
    - apply L'.
    - intros e X. apply (lg_io _ _ _ _ _ G e), (fr_io _ _ _ _ F), X.
    - intros l k2 b2 Nl. destruct (Y _ _ _ Nl) as [(-> & -> & ->)|(Hl & Ml)].
      + rewrite set_at_same. constructor; auto. exists o', p'. rewrite <- Hc.
        replace (set_world b' (b_w b')) with b' by (destruct b'; reflexivity).
        rewrite (so_uid _ _ So), (so_app _ _ So), (so_rd _ _ So), (so_wr _ _ So), Raw. auto.
      + rewrite set_at_other by auto. apply (linv_world u (g_world g) i); auto.
        * apply (lg_streams _ _ _ _ _ G _ _ _ Ml).
        * apply (fr_fds _ _ _ _ F). apply (lg_inj _ _ _ _ _ G l j k2 b2 k b); auto.
        * apply L'.
    - intros x l k1 b1 k2 b2 N1 N2 Hx.
      assert (Y2 : forall x k1 b1, nth_error (replace j (k, b') (g_streams g)) x = Some (k1, b1) ->
                exists b3, nth_error (g_streams g) x = Some (k1, b3) /\ b_raw b1 = b_raw b3).
      { intros y ky by_ Ny. destruct (Y _ _ _ Ny) as [(-> & -> & ->)|(Hl & Ml)]; eauto. }
      destruct (Y2 _ _ _ N1) as (a1 & M1 & ->), (Y2 _ _ _ N2) as (a2 & M2 & ->).
      apply (lg_inj _ _ _ _ _ G _ _ _ _ _ _ M1 M2 Hx). }
  (* what a flush does *)
  assert (Fl : forall b1 p1 pj, rep k b1 o i (n_data i ++ concat pj) p1 -> b_wbuf b1 = concat pj -> tameb False b1 o ->
     exists b2 o2 i2, flush_unlocked b1 = (Ok tt, b2) /\ rep k b2 o2 i2 (n_data i ++ concat pj) p1 /\ evolves b1 b2 o o2
       /\ b_rbuf b2 = b_rbuf b1 /\ b_wbuf b2 = [] /\ n_data i2 = n_data i ++ concat pj).
  { intros b1 p1 pj R1 Ew1 T1. destruct (flush_ok False k b1 o i _ p1 R1 T1) as (r & b2 & o2 & i2 & E2 & [R2 V2 Rb _ _ [(-> & W2)|([] & _)]]).
    exists b2, o2, i2. split; [exact E2|]. split; [exact R2|]. split; [exact V2|]. split; [exact Rb|]. split; [exact W2|].
    pose proof (rp_c _ _ _ _ _ _ R2) as X. rewrite W2, write_at_nil in X. symmetry. exact X. }
  destruct Hop as [(d & ->)| ->]; cbn [run_bop] in E.
  - assert (E0 : writer_write d b0 = (match out with OInt n => Ok n | _ => Ok 0 end, b') -> True) by auto. clear E0.
    assert (Ew0 : b_write k d b0 = writer_write d b0).
    { destruct k; [congruence|reflexivity|]. unfold b_write, bind. cbn [b0 set_world b_rbuf]. now rewrite Er. }
    rewrite Ew0 in E. clear Ew0. unfold writer_write in E. unfold bind at 1 in E. rewrite (check_closed_rep _ _ _ _ _ _ R) in E.
    unfold bind at 1 in E. cbn [b0 set_world b_size b_wbuf] in E.
    assert (b_size b <? Z.of_nat (length (b_wbuf b)) = false) as X by (apply Z.ltb_ge; exact Ro). rewrite X in E. clear X.
    unfold bind at 1 in E. fold b0 in E. set (b1 := set_wbuf b0 (b_wbuf b0 ++ d)) in *.
    pose proof (rep_append k b0 o i _ p d R Kw Er) as R1. fold b1 in R1. rewrite Ha in R1.
    assert (Hp1 : put true (n_data i ++ concat (pend j)) p d = n_data i ++ concat (pend j ++ [d])).
    { rewrite put_end. rewrite concat_app. cbn. now rewrite app_nil_r, app_assoc. }
    rewrite Hp1 in R1. assert (Ew1 : b_wbuf b1 = concat (pend j ++ [d])).
    { cbn [b1 set_wbuf b_wbuf b0 set_world]. rewrite Ew, concat_app. cbn. now rewrite app_nil_r. }
    assert (V1 : evolves b0 b1 o o) by (constructor; auto with frame).
    cbn [b_size] in E. destruct (b_size b1 <? Z.of_nat (length (b_wbuf b1))) eqn:Ef.
    + destruct (Fl b1 _ _ R1 Ew1 (tameb_evolves _ _ _ _ _ V1 T)) as (b2 & o2 & i2 & E2 & R2 & V2 & Rb2 & W2 & D2).
      rewrite E2 in E. cbn in E. injection E as <- <-.
      exists (n_data i2), (set_at pend j []), i2. split.
      * rewrite D2, (lg_data _ _ _ _ _ G). apply LS_out.
      * apply (Fin o2 i2 _ _ [] R2); auto.
        -- eapply evolves_trans; eauto.
        -- now rewrite Rb2.
        -- rewrite W2, len_nil. pose proof (rp_size _ _ _ _ _ _ R2). lia.
        -- cbn. now rewrite D2, app_nil_r.
    + cbn in E. injection E as <- <-. exists (n_data i), (set_at pend j (pend j ++ [d])), i. split.
      * rewrite (lg_data _ _ _ _ _ G). apply LS_keep.
      * apply (Fin o i _ _ (pend j ++ [d]) R1); auto. apply Z.ltb_ge in Ef. exact Ef.
  - assert (Ef : b_flush k b0 = flush_unlocked b0) by (destruct k; [congruence|reflexivity|reflexivity]). rewrite Ef in E.
    destruct (Fl b0 p (pend j) R Ew T) as (b2 & o2 & i2 & E2 & R2 & V2 & Rb2 & W2 & D2). rewrite E2 in E. cbn in E. injection E as <- <-.
    exists (n_data i2), (set_at pend j []), i2. split.
    + rewrite D2, (lg_data _ _ _ _ _ G). apply LS_flush.
    + apply (Fin o2 i2 _ _ [] R2); auto.
      * now rewrite Rb2.
      * rewrite W2, len_nil. pose proof (rp_size _ _ _ _ _ _ R2). lia.
      * cbn. now rewrite D2, app_nil_r.
Qed.

Lemma lruns_ok u : forall acts g c pend i, lginv u g c pend i -> just_append u acts g ->
  forall outs g', run_gacts u acts g = (outs, g') ->
  exists c' pend' i', lruns (c, pend) acts outs (c', pend') /\ lginv u g' c' pend' i'.
Proof.
  induction acts as [|a acts IH]; intros g c pend i G J outs g' E; cbn [run_gacts just_append] in *.
  { injection E as <- <-. exists c, pend, i. split; [constructor|exact G]. }
  destruct (run_gact u a g) as [out g1] eqn:E1. destruct (run_gacts u acts g1) as [outs2 g2] eqn:E2. injection E as <- <-. cbn [snd] in J.
  destruct J as [Ja J].
  assert (Go : forall c1 pend1 i1, lstep (c, pend) a out (c1, pend1) -> lginv u g1 c1 pend1 i1 ->
     exists c' pend' i', lruns (c, pend) (a :: acts) (out :: outs2) (c', pend') /\ lginv u g2 c' pend' i').
  { intros c1 pend1 i1 S G1. destruct (IH g1 c1 pend1 i1 G1 J _ _ E2) as (c' & pend' & i' & R & G'). exists c', pend', i'.
    split; [eapply LR_cons; eauto|exact G']. }
  assert (Op : forall j op, a = GOp j op -> (exists d, op = BoWrite d) \/ op = BoFlush -> kind_of g j <> None ->
     exists c' pend' i', lruns (c, pend) (a :: acts) (out :: outs2) (c', pend') /\ lginv u g2 c' pend' i').
  { intros j op -> Hop Hk. cbn [run_gact] in E1. unfold on_stream in E1. unfold kind_of in Hk.
    destruct (nth_error (g_streams g) j) as [[k b]|] eqn:N; [|cbn in Hk; congruence].
    destruct (run_bop k op (set_world b (g_world g))) as [ro b3] eqn:Er. injection E1 as <- <-.
    destruct (lstep_op _ _ _ _ _ _ _ _ _ _ _ G N Hop Er) as (c1 & pend1 & i1 & S & G1). eapply Go; eauto. }
  destruct a as [| j op| | |d]; try contradiction.
  - destruct op; try contradiction; (eapply Op; [reflexivity| |exact Ja]); eauto.
  - clear Op. cbn [run_gact] in E1. injection E1 as <- <-. destruct Ja as (e & ->).
    assert (Hc : content (g_world g) u = c) by (unfold content; rewrite (lg_ino _ _ _ _ _ G); apply (lg_data _ _ _ _ _ G)).
    rewrite Hc in *. apply (Go (c ++ e) pend (mkIno KReg (c ++ e) true)); [apply LS_other|].
    assert (Ei : w_inodes (upd_ino (g_world g) u (mkIno KReg (c ++ e) true)) u = Some (mkIno KReg (c ++ e) true)) by (cbn; apply upd_same, P_Raw.uid_eqb_refl).
    destruct G. constructor; cbn [g_world g_streams]; auto.
    intros j k b N. apply (linv_world u (g_world g) i); auto.
Qed.

(** Append mode without locks: as long as nothing comes between the system calls of one call,
    records of the streams and of other processes are never mixed: the file grows by whole
    records, those of each stream in order, and what is missing waits in the stream. *)
Theorem C86_unlocked_records_partial : forall u g c acts outs g',
  appenders u g c -> just_append u acts g -> run_gacts u acts g = (outs, g') ->
  exists c' pend', lruns (c, fun _ => []) acts outs (c', pend') /\ holds_file (g_world g') u c'
    /\ (forall j k b, nth_error (g_streams g') j = Some (k, b) -> b_wbuf b = concat (pend' j)).
Proof.
  intros u g c acts outs g' [(Hc & (i & Ei & Ek)) Io St Di] J E.
  assert (Ed : n_data i = c) by (destruct Hc as (i0 & E0 & D0); congruence).
  assert (G : lginv u g c (fun _ => []) i).
  { constructor; auto. intros j k b N. destruct (St j k b N) as (Hk & f & size & w & o & -> & Hs & Hcl & Hsk & Hfw & Hfr & Eo & Hou & Ha & Hw & Hp & Hrd).
    constructor; cbn [fresh b_raw b_rbuf b_wbuf b_size]; auto; [|rewrite len_nil; lia].
    exists o, (o_pos o). cbn [concat]. rewrite app_nil_r. split; [|auto].
    change (set_world (fresh f size w) (g_world g)) with (fresh f size (g_world g)).
    apply fresh_rep; auto.
    - constructor; auto. now rewrite Hou.
    - intros K. apply Hfr. destruct k; try discriminate; congruence. }
  destruct (lruns_ok u acts g c _ i G J outs g' E) as (c' & pend' & i' & R & G'). exists c', pend'. split; [exact R|]. split.
  - exists i'. split; [apply (lg_ino _ _ _ _ _ G')|apply (lg_data _ _ _ _ _ G')].
  - intros j k b N. apply (li_wbuf _ _ _ _ _ _ (lg_streams _ _ _ _ _ G' _ _ _ N)).
Qed.

(** Between the system calls of one flush another process may well append: the kernel took one
    byte of [1;2;3], then came the record [7], then the rest. *)
Definition whole_between_system_calls : Prop := forall u g b c d e s1 s2 q1 q2,
  appenders u g c -> g_streams g = [(BWriter, b)] ->
  prun (prog_of BWriter) s1 (new_pool (set_world b (g_world g)) [[TOp (BoWrite d); TOp BoFlush]]) = Some q1 ->
  let w := b_w (q_st q1) in
  prun (prog_of BWriter) s2 (mkPool (q_locks q1) (set_world (q_st q1) (upd_ino w u (mkIno KReg (content w u ++ e) true)))
                              (q_thr q1) (q_log q1)) = Some q2 ->
  Forall finished (q_thr q2) ->
  content (b_w (q_st q2)) u = c ++ d ++ e \/ content (b_w (q_st q2)) u = c ++ e ++ d.

(** Streams of kinds [ks] on "f", opened for appending. *)
Definition log_group (ks : list bkind) (data : list Z) (io : list ioev) : group :=
  let '(fs, w) := open_all true ks (demo data io [] []) in
  mkGroup (map (fun x => (fst x, fresh (snd x) 8 w)) fs) w.
Lemma log_one : appenders (1, 10) (log_group [BWriter] [] [IoFull; IoShort 1]) [].
Proof.
  constructor.
  - split; eexists; (split; [vm_compute; reflexivity|reflexivity]).
  - intros e [E|[]]; discriminate E.
  - intros [|[|j]] k b N; vm_hyp N; try discriminate. injection N as <- <-. split; [discriminate|].
    eexists _, _, _, _; split; [reflexivity|]; split; [lia|]; split; [reflexivity|]; split; [reflexivity|]; split; [reflexivity|]; split; [discriminate|];
      split; [vm_compute; reflexivity|]; cbn; repeat split; auto; try lia; discriminate.
  - intros [|[|j]] [|[|l]] k b k' b' N N' Hn; vm_hyp N; vm_hyp N'; try discriminate; congruence.
Qed.
Theorem C86_between_system_calls_refuted : ~ whole_between_system_calls.
Proof.
  intros H. set (g := log_group [BWriter] [] [IoFull; IoShort 1]).
  set (b := match g_streams g with (_, b) :: _ => b | [] => fresh (fst (demo_f BWriter [])) 8 (g_world g) end).
  set (q0 := new_pool (set_world b (g_world g)) [[TOp (BoWrite [1;2;3]); TOp BoFlush]] : pool tcall rout).
  set (q1 := match prun (prog_of BWriter) (repeat 0%nat 13) q0 with Some q => q | None => q0 end).
  set (q1' := mkPool (q_locks q1) (set_world (q_st q1)
         (upd_ino (b_w (q_st q1)) (1, 10) (mkIno KReg (content (b_w (q_st q1)) (1, 10) ++ [7]) true))) (q_thr q1) (q_log q1)).
  set (q2 := match prun (prog_of BWriter) (repeat 0%nat 6) q1' with Some q => q | None => q0 end).
  assert (E1 : prun (prog_of BWriter) (repeat 0%nat 13) q0 = Some q1).
  { assert (match prun (prog_of BWriter) (repeat 0%nat 13) q0 with Some _ => true | None => false end = true) as X by (vm_compute; reflexivity).
    unfold q1. destruct (prun (prog_of BWriter) (repeat 0%nat 13) q0); congruence. }
  assert (E2 : prun (prog_of BWriter) (repeat 0%nat 6) q1' = Some q2).
  { assert (match prun (prog_of BWriter) (repeat 0%nat 6) q1' with Some _ => true | None => false end = true) as X by (vm_compute; reflexivity).
    unfold q2. destruct (prun (prog_of BWriter) (repeat 0%nat 6) q1'); congruence. }
  assert (F : Forall finished (q_thr q2)) by (apply all_done_ok; vm_compute; reflexivity).
  assert (X : content (b_w (q_st q2)) (1, 10) = [1;7;2;3]) by (vm_compute; reflexivity).
  destruct (H (1, 10) g b [] [1;2;3] [7] _ _ q1 q2 log_one eq_refl E1 E2 F) as [Y|Y]; rewrite X in Y; discriminate Y.
Qed.

(** * Examples *)
Definition two_logs : group := log_group [BWriter; BWriter] [9] [].
Lemma two_logs_together : together (1, 10) two_logs [9] (fun _ => 1).
Proof.
  constructor;
   [ eexists; split; [vm_compute; reflexivity|split; reflexivity]
   | vm_compute; reflexivity | intros e [] | vm_compute; reflexivity | vm_compute; reflexivity | intros s1 s2 b []
   | intros [|[|[|j]]] k b N; vm_hyp N; try discriminate; injection N as <- <-;
     (eexists _, _, _, _; split; [reflexivity|]; split; [lia|]; split; [reflexivity|]; split; [reflexivity|]; split; [reflexivity|];
      split; [vm_compute; reflexivity|]; cbn; repeat split; auto; try lia; try congruence)
   | intros [|[|[|j]]] [|[|[|l]]] k b k' b' N N' Hn; vm_hyp N; vm_hyp N'; try discriminate; try congruence;
     injection N as <- <-; injection N' as <- <-; discriminate ].
Qed.
(** Stream 0 writes a record in two calls while stream 1 sleeps; another process appends 5 in between. *)
Definition logging : list wact :=
  map WAct [GLock 0 PNone; GOp 0 (BoWrite [1;2]); GLock 1 PNone; GOp 0 (BoWrite [3]); GUnlock 0; GOther taken; GData [9;1;2;3;5]; GOther []]
  ++ [WTurn 1] ++ map WAct [GOp 1 (BoWrite [7;8]); GUnlock 1].
Example C85_example :
  let '(outs, W) := run_wacts (1, 10) logging (at_rest two_logs) in
  outs = [GGot; GRes (OInt 2); GSilent; GRes (OInt 1); GReleased; GSilent; GSilent; GSilent; GGot; GRes (OInt 2); GReleased]
  /\ content (g_world (wg W)) (1, 10) = [9;1;2;3;5;7;8].
Proof. vm_compute. auto. Qed.
Example C85_hypotheses :
  together (1, 10) two_logs [9] (fun _ => 1) /\ loggers two_logs /\ never_truncates logging /\ unread_only two_logs
  /\ wobeys (1, 10) nobody (fun _ => true) nobody logging (at_rest two_logs).
Proof.
  split; [apply two_logs_together|]. split; [|split; [|split]].
  - intros [|[|[|j]]] k N _; vm_hyp N; try discriminate; vm_compute; reflexivity.
  - intros j s X. cbn in X. repeat (destruct X as [X|X]; [discriminate X|]). exact X.
  - intros [|[|[|j]]] k b N; vm_hyp N; try discriminate; injection N as <- <-; discriminate.
  - apply wobeysb_ok. vm_compute. reflexivity.
Qed.
(** The same streams without locks, a buffer of eight bytes, other processes appending. *)
Definition unlocked : list gact :=
  [GOp 0 (BoWrite [1;1;1;1;1]); GOp 1 (BoWrite [2;2]); GOp 1 BoFlush; GData [9;2;2;3]; GOp 0 (BoWrite [4;4;4;4]); GOp 1 (BoWrite [5])].
Example C86_example :
  let '(outs, g) := run_gacts (1, 10) unlocked two_logs in
  outs = [GRes (OInt 5); GRes (OInt 2); GRes OUnit; GSilent; GRes (OInt 4); GRes (OInt 1)]
  /\ content (g_world g) (1, 10) = [9;2;2;3;1;1;1;1;1;4;4;4;4] /\ map (fun x => b_wbuf (snd x)) (g_streams g) = [[]; [5]].
Proof. vm_compute. auto. Qed.
Example C86_hypotheses : appenders (1, 10) two_logs [9] /\ just_append (1, 10) unlocked two_logs.
Proof.
  split.
  - constructor.
    + split; eexists; (split; [vm_compute; reflexivity|reflexivity]).
    + intros e [].
    + intros [|[|[|j]]] k b N; vm_hyp N; try discriminate; injection N as <- <-; (split; [discriminate|]);
      (eexists _, _, _, _; split; [reflexivity|]; split; [lia|]; split; [reflexivity|]; split; [reflexivity|]; split; [reflexivity|]; split; [discriminate|];
        split; [vm_compute; reflexivity|]; cbn; repeat split; auto; try lia; discriminate).
    + intros [|[|[|j]]] [|[|[|l]]] k b k' b' N N' Hn; vm_hyp N; vm_hyp N'; try discriminate; try congruence;
      injection N as <- <-; injection N' as <- <-; discriminate.
  - unfold unlocked. repeat (cbn [just_append]; split; [first [vm_compute; discriminate | exists [3]; vm_compute; reflexivity]|]). exact Logic.I.
Qed.

Print Assumptions C85_logs_concatenate.
Print Assumptions C85_records_in_one_piece.
Print Assumptions C86_unlocked_records_partial.
Print Assumptions C86_between_system_calls_refuted.
