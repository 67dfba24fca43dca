(** Byte-level facts about the kernel lock table. *)
From Coq Require Import ZArith List Bool Lia ZifyBool.
From Verif Require Import M_Base M_Registry M_Kernel S_Locks P_Registry.
Import ListNotations.
Open Scope Z_scope.

(** Process [p] holds, on byte [b] of [u], a kernel lock of kind [sh]. *)
Definition kholds (K : klocks) (p : Z) (u : uid) (sh : bool) (b : Z) : Prop :=
  exists s, In s K /\ k_pid s = p /\ k_ino s = u /\ k_shared s = sh /\ in_range (k_lo s) (k_hi s) b.

Lemma nonempty_spec lo hi : nonempty lo hi = true <-> exists b, in_range lo hi b.
Proof.
  unfold nonempty, in_range. destruct hi; split; intros H; try lia.
  - exists lo; lia.
  - destruct H; lia.
  - exists lo; lia.
Qed.

Lemma in_if {A} (c : bool) (x y : A) : In y (if c then [x] else []) <-> c = true /\ y = x.
Proof. destruct c; simpl; intuition congruence. Qed.

Lemma cut_seg_fields lo hi s s' :
  In s' (cut_seg lo hi s) -> k_pid s' = k_pid s /\ k_ino s' = k_ino s /\ k_shared s' = k_shared s.
Proof.
  unfold cut_seg. rewrite in_app_iff, in_if. intros [[_ ->]|H]; simpl; auto.
  destruct hi; simpl in H; [|tauto]. apply in_if in H. destruct H as [_ ->]; simpl; auto.
Qed.

Lemma cut_seg_bytes lo hi s b :
  (exists s', In s' (cut_seg lo hi s) /\ in_range (k_lo s') (k_hi s') b)
  <-> in_range (k_lo s) (k_hi s) b /\ ~ in_range lo hi b.
Proof.
  unfold cut_seg. split.
  - intros (s' & Hin & Hb). rewrite in_app_iff, in_if in Hin. destruct Hin as [[_ ->]|H].
    + simpl in Hb. unfold in_range in *. destruct (k_hi s), hi; simpl in *; lia.
    + destruct hi; simpl in H; [|tauto]. apply in_if in H. destruct H as [_ ->]; simpl in Hb.
      unfold in_range in *. destruct (k_hi s); lia.
  - intros [Hs Hn]. destruct (Z_lt_ge_dec b lo) as [Hl|Hl].
    + exists (mkSeg (k_pid s) (k_ino s) (k_shared s) (k_lo s) (opt_min (k_hi s) (Some lo))).
      assert (in_range (k_lo s) (opt_min (k_hi s) (Some lo)) b) as Hr.
      { unfold in_range in *. destruct (k_hi s); simpl; lia. }
      split; [|exact Hr]. rewrite in_app_iff, in_if. left. split; auto.
      apply nonempty_spec. eauto.
    + destruct hi as [h|]; [|exfalso; apply Hn; unfold in_range; lia].
      assert (in_range (Z.max h (k_lo s)) (k_hi s) b) as Hr.
      { unfold in_range in *. destruct (k_hi s); lia. }
      exists (mkSeg (k_pid s) (k_ino s) (k_shared s) (Z.max h (k_lo s)) (k_hi s)).
      split; [|exact Hr]. rewrite in_app_iff. right. simpl. apply in_if. split; auto.
      apply nonempty_spec. eauto.
Qed.

Lemma own_spec p u s : own p u s = true <-> k_pid s = p /\ k_ino s = u.
Proof. unfold own. rewrite andb_true_iff, Z.eqb_eq, uid_eqb_eq. tauto. Qed.

Lemma kunlock_holds K p u lo hi p' u' sh b :
  kholds (kunlock K p u lo hi) p' u' sh b
  <-> kholds K p' u' sh b /\ ~ (p' = p /\ u' = u /\ in_range lo hi b).
Proof.
  unfold kholds, kunlock. split.
  - intros (s' & Hin & H1 & H2 & H3 & Hb). apply in_flat_map in Hin. destruct Hin as (s & Hs & Hin).
    destruct (own p u s) eqn:Eo.
    + apply own_spec in Eo. destruct Eo as [E1 E2].
      destruct (cut_seg_fields _ _ _ _ Hin) as (F1 & F2 & F3).
      assert (in_range (k_lo s) (k_hi s) b /\ ~ in_range lo hi b) as [Hb1 Hb2].
      { apply cut_seg_bytes. eauto. }
      split; [|tauto]. exists s. split; [auto|]. split; [congruence|]. split; [congruence|]. split; [congruence|auto].
    + destruct Hin as [<-|[]]. split; [exists s; auto|].
      intros (-> & -> & _). assert (own p u s = true) by (apply own_spec; auto). congruence.
  - intros [(s & Hs & H1 & H2 & H3 & Hb) Hn].
    destruct (own p u s) eqn:Eo.
    + pose proof (proj1 (own_spec _ _ _) Eo) as [E1 E2].
      assert (exists s', In s' (cut_seg lo hi s) /\ in_range (k_lo s') (k_hi s') b) as (s' & Hin & Hb').
      { apply cut_seg_bytes. split; auto. intros X. apply Hn. subst; auto. }
      destruct (cut_seg_fields _ _ _ _ Hin) as (F1 & F2 & F3).
      exists s'. split; [|split; [congruence|split; [congruence|split; [congruence|auto]]]].
      apply in_flat_map. exists s. split; auto. now rewrite Eo.
    + exists s. split; [|auto]. apply in_flat_map. exists s. split; auto. rewrite Eo. now left.
Qed.

Lemma ksetlk_holds K p u sh lo hi K' :
  ksetlk K p u sh lo hi = Some K' ->
  forall p' u' sh' b,
  kholds K' p' u' sh' b
  <-> (p' = p /\ u' = u /\ sh' = sh /\ in_range lo hi b)
      \/ (kholds K p' u' sh' b /\ ~ (p' = p /\ u' = u /\ in_range lo hi b)).
Proof.
  unfold ksetlk. destruct (existsb _ _); [discriminate|]. intros [= <-] p' u' sh' b.
  rewrite <- kunlock_holds. unfold kholds. split.
  - intros (s & [<-|Hin] & H). { simpl in H. left. intuition auto. } right. exists s. auto.
  - intros [(-> & -> & -> & Hb)|(s & Hin & H)].
    + eexists. split; [left; reflexivity|]. simpl. auto.
    + exists s. split; [now right|auto].
Qed.

Lemma ksetlk_noconflict K p u sh lo hi K' :
  ksetlk K p u sh lo hi = Some K' ->
  forall p' sh' b, p' <> p -> kholds K p' u sh' b -> in_range lo hi b -> sh' = true /\ sh = true.
Proof.
  unfold ksetlk. destruct (existsb _ _) eqn:E; [discriminate|]. intros _ p' sh' b Hp (s & Hin & H1 & H2 & H3 & Hb) Hr.
  assert (kconflict p u sh lo hi s = false) as Hc.
  { destruct (kconflict p u sh lo hi s) eqn:Ec; auto.
    assert (existsb (kconflict p u sh lo hi) K = true) by (apply existsb_exists; eauto). congruence. }
  unfold kconflict in Hc. assert (areas_overlap (k_lo s) (k_hi s) lo hi = true) as Ho.
  { apply overlap_spec. exists b; auto. }
  rewrite Ho, andb_true_r in Hc. subst u. rewrite uid_eqb_refl in Hc.
  assert ((k_pid s =? p) = false) as Ep by (apply Z.eqb_neq; congruence). rewrite Ep in Hc. simpl in Hc.
  apply negb_false_iff, andb_true_iff in Hc. intuition congruence.
Qed.

(** The converse: a refused request has a reason. *)
Lemma ksetlk_refused K p u sh lo hi :
  ksetlk K p u sh lo hi = None ->
  exists p' sh' b, p' <> p /\ kholds K p' u sh' b /\ in_range lo hi b /\ ~ (sh' = true /\ sh = true).
Proof.
  unfold ksetlk. destruct (existsb _ _) eqn:E; [|discriminate]. intros _.
  apply existsb_exists in E. destruct E as (s & Hin & Hc). unfold kconflict in Hc.
  rewrite !andb_true_iff, !negb_true_iff in Hc. destruct Hc as [[[Hp Hu] Hs] Ho].
  apply overlap_spec in Ho. destruct Ho as (b & B1 & B2). apply uid_eqb_eq in Hu.
  exists (k_pid s), (k_shared s), b. split; [now apply Z.eqb_neq|].
  split; [exists s; auto|]. split; auto. rewrite <- andb_true_iff. congruence.
Qed.

Lemma kclose_holds K p u p' u' sh b :
  kholds (kclose K p u) p' u' sh b <-> kholds K p' u' sh b /\ ~ (p' = p /\ u' = u).
Proof.
  unfold kholds, kclose. split.
  - intros (s & Hin & H1 & H2 & H). apply filter_In in Hin. destruct Hin as [Hin Ho].
    split; [exists s; auto|]. intros [-> ->].
    assert (own p u s = true) by (apply own_spec; auto). rewrite H0 in Ho. discriminate.
  - intros [(s & Hin & H1 & H2 & H) Hn]. exists s. split; [|auto].
    apply filter_In. split; auto. destruct (own p u s) eqn:Eo; auto.
    apply own_spec in Eo. destruct Eo. subst. tauto.
Qed.

Lemma kexit_holds K p p' u' sh b :
  kholds (kexit K p) p' u' sh b <-> kholds K p' u' sh b /\ p' <> p.
Proof.
  unfold kholds, kexit. split.
  - intros (s & Hin & H1 & H). apply filter_In in Hin. destruct Hin as [Hin Ho].
    split; [exists s; auto|]. apply negb_true_iff, Z.eqb_neq in Ho. congruence.
  - intros [(s & Hin & H1 & H) Hn]. exists s. split; [|auto].
    apply filter_In. split; auto. apply negb_true_iff, Z.eqb_neq. congruence.
Qed.

Lemma kholds_nil p u sh b : ~ kholds [] p u sh b.
Proof. intros (s & [] & _). Qed.
