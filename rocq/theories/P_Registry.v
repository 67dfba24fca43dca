From Coq Require Import ZArith List Bool Lia ZifyBool.
From Verif Require Import M_Base M_Registry S_Locks.
Import ListNotations.
Open Scope Z_scope.

(** ** Basic facts *)
Lemma uid_eqb_eq a b : uid_eqb a b = true <-> a = b.
Proof.
  destruct a as [a1 a2], b as [b1 b2]. unfold uid_eqb; simpl.
  rewrite andb_true_iff, !Z.eqb_eq. split; [intros [-> ->]; auto|intros H; injection H; auto].
Qed.
Lemma uid_eqb_refl a : uid_eqb a a = true.
Proof. now apply uid_eqb_eq. Qed.
Lemma uid_eqb_neq a b : uid_eqb a b = false <-> a <> b.
Proof. rewrite <- uid_eqb_eq. destruct (uid_eqb a b); split; congruence. Qed.
Lemma uid_dec (a b : uid) : {a = b} + {a <> b}.
Proof. destruct (uid_eqb a b) eqn:E; [left; now apply uid_eqb_eq|right; now apply uid_eqb_neq]. Qed.

Lemma reg_set_eq r u e : r_map (reg_set r u e) u = e.
Proof. unfold reg_set, upd; simpl. now rewrite uid_eqb_refl. Qed.
Lemma reg_set_neq r u v e : u <> v -> r_map (reg_set r u e) v = r_map r v.
Proof. intros H. unfold reg_set, upd; simpl. apply uid_eqb_neq in H. now rewrite H. Qed.

(** ** Ranges *)
Lemma overlap_spec lo1 hi1 lo2 hi2 :
  areas_overlap lo1 hi1 lo2 hi2 = true <-> share_byte lo1 hi1 lo2 hi2.
Proof.
  unfold areas_overlap, share_byte, in_range.
  destruct hi1 as [h1|], hi2 as [h2|].
  - destruct (h2 <? h1) eqn:E; (split;
      [intros H; exists (Z.max lo1 lo2); lia | intros (b & H); lia]).
  - split; [intros H; exists (Z.max lo1 lo2); lia | intros (b & H); lia].
  - split; [intros H; exists (Z.max lo1 lo2); lia | intros (b & H); lia].
  - split; auto. intros _. exists (Z.max lo1 lo2). lia.
Qed.
Lemma overlap_false lo1 hi1 lo2 hi2 :
  areas_overlap lo1 hi1 lo2 hi2 = false <-> ~ share_byte lo1 hi1 lo2 hi2.
Proof. rewrite <- overlap_spec. destruct (areas_overlap lo1 hi1 lo2 hi2); split; congruence. Qed.

Lemma share_byte_sym lo1 hi1 lo2 hi2 : share_byte lo1 hi1 lo2 hi2 -> share_byte lo2 hi2 lo1 hi1.
Proof. intros (b & H1 & H2). exists b; auto. Qed.

Lemma range_end_covers start length b :
  in_range start (range_end start length) b <-> covers start length b.
Proof.
  unfold in_range, range_end, covers. destruct length as [l|]; [|tauto].
  destruct (l =? 0) eqn:E; lia.
Qed.

(** ** The scan *)
Definition conflicts_other (lk : lockrec) (h : Z) (st : Z) (en : option Z) (sh : bool) : Prop :=
  lk_handle lk <> h /\ ~ (lk_shared lk = true /\ sh = true) /\ share_byte (lk_start lk) (lk_end lk) st en.
Definition conflicts_same (lk : lockrec) (h : Z) (st : Z) (en : option Z) : Prop :=
  lk_handle lk = h /\ share_byte (lk_start lk) (lk_end lk) st en.

Lemma scan_step lk rest h st en sh :
  (conflicts_same lk h st en /\ scan_locks (lk :: rest) h st en sh = ScanSame)
  \/ (conflicts_other lk h st en sh /\ scan_locks (lk :: rest) h st en sh = ScanBusy)
  \/ (~ conflicts_same lk h st en /\ ~ conflicts_other lk h st en sh
      /\ scan_locks (lk :: rest) h st en sh = scan_locks rest h st en sh).
Proof.
  simpl. unfold conflicts_same, conflicts_other.
  destruct (lk_handle lk =? h) eqn:Eh; simpl.
  - apply Z.eqb_eq in Eh. destruct (areas_overlap _ _ st en) eqn:Eo.
    + apply overlap_spec in Eo. left. auto.
    + apply overlap_false in Eo. right; right. repeat split; tauto.
  - apply Z.eqb_neq in Eh.
    destruct (lk_shared lk && sh) eqn:Es.
    + apply andb_true_iff in Es. right; right. repeat split; tauto.
    + assert (~ (lk_shared lk = true /\ sh = true)) as Hs by (rewrite <- andb_true_iff; congruence).
      destruct (areas_overlap _ _ st en) eqn:Eo.
      * apply overlap_spec in Eo. right; left. auto.
      * apply overlap_false in Eo. right; right. repeat split; tauto.
Qed.

Lemma scan_free locks h st en sh :
  scan_locks locks h st en sh = ScanFree <->
  (forall lk, In lk locks -> ~ conflicts_same lk h st en /\ ~ conflicts_other lk h st en sh).
Proof.
  induction locks as [|lk rest IH].
  - simpl. split; [intros _ lk []|auto].
  - destruct (scan_step lk rest h st en sh) as [[H E]|[[H E]|(H1 & H2 & E)]]; rewrite E.
    + split; [discriminate|]. intros X. destruct (X lk (or_introl eq_refl)); contradiction.
    + split; [discriminate|]. intros X. destruct (X lk (or_introl eq_refl)); contradiction.
    + rewrite IH. split.
      * intros X l [<-|Hl]; auto.
      * intros X l Hl. apply X. now right.
Qed.

Lemma scan_busy_ex locks h st en sh :
  scan_locks locks h st en sh = ScanBusy -> exists lk, In lk locks /\ conflicts_other lk h st en sh.
Proof.
  induction locks as [|lk rest IH]; [discriminate|].
  destruct (scan_step lk rest h st en sh) as [[H E]|[[H E]|(H1 & H2 & E)]]; rewrite E; intros X.
  - discriminate.
  - exists lk. split; auto. now left.
  - destruct (IH X) as (l & Hl & Hc). exists l. split; auto. now right.
Qed.

Lemma scan_same_ex locks h st en sh :
  scan_locks locks h st en sh = ScanSame -> exists lk, In lk locks /\ conflicts_same lk h st en.
Proof.
  induction locks as [|lk rest IH]; [discriminate|].
  destruct (scan_step lk rest h st en sh) as [[H E]|[[H E]|(H1 & H2 & E)]]; rewrite E; intros X.
  - exists lk. split; auto. now left.
  - discriminate.
  - destruct (IH X) as (l & Hl & Hc). exists l. split; auto. now right.
Qed.

Lemma scan_same_first l1 lk l2 h st en sh :
  (forall x, In x l1 -> ~ conflicts_other x h st en sh) -> conflicts_same lk h st en ->
  scan_locks (l1 ++ lk :: l2) h st en sh = ScanSame.
Proof.
  intros Hno Hs. induction l1 as [|x l1 IH]; cbn [app].
  - destruct (scan_step lk l2 h st en sh) as [[H E]|[[H E]|(H1 & H2 & E)]]; auto.
    + destruct H as (H & _). destruct Hs as [Hs _]. contradiction.
    + contradiction.
  - destruct (scan_step x (l1 ++ lk :: l2) h st en sh) as [[H E]|[[H E]|(H1 & H2 & E)]]; auto.
    + exfalso. apply (Hno x); auto. now left.
    + rewrite E. apply IH. intros y Hy. apply Hno. now right.
Qed.

(** ** Soundness of a lock table *)
Definition compat (a b : lockrec) : Prop :=
  share_byte (lk_start a) (lk_end a) (lk_start b) (lk_end b) ->
  lk_handle a <> lk_handle b /\ lk_shared a = true /\ lk_shared b = true.

Definition table_sound (locks : list lockrec) : Prop :=
  forall i j a b, i <> j -> nth_error locks i = Some a -> nth_error locks j = Some b -> compat a b.

Lemma compat_sym a b : compat a b -> compat b a.
Proof.
  intros H Hs. apply share_byte_sym in Hs. destruct (H Hs) as (A & B & C). auto.
Qed.

Lemma table_sound_nil : table_sound [].
Proof. intros i j a b _ H. destruct i; discriminate. Qed.

Lemma table_sound_app_one l x :
  table_sound (l ++ [x]) <-> table_sound l /\ (forall y, In y l -> compat y x).
Proof.
  split.
  - intros H. split.
    + intros i j a b Hij Ha Hb. apply (H i j); auto; rewrite nth_error_app1; auto;
        apply nth_error_Some; congruence.
    + intros y Hy. apply In_nth_error in Hy. destruct Hy as [n Hn].
      assert (n < length l)%nat by (apply nth_error_Some; congruence).
      apply (H n (length l)); [lia| |].
      * rewrite nth_error_app1; auto.
      * rewrite nth_error_app2, Nat.sub_diag by lia. reflexivity.
  - intros [Hl Hx] i j a b Hij Ha Hb.
    assert (forall k z, nth_error (l ++ [x]) k = Some z ->
      (nth_error l k = Some z /\ (k < length l)%nat) \/ (z = x /\ k = length l)) as Hsplit.
    { intros k z Hk. destruct (Nat.lt_ge_cases k (length l)).
      - rewrite nth_error_app1 in Hk by auto. auto.
      - rewrite nth_error_app2 in Hk by auto. destruct (k - length l)%nat eqn:E.
        + simpl in Hk. injection Hk as <-. right. split; auto. lia.
        + simpl in Hk. destruct n; discriminate. }
    destruct (Hsplit i a Ha) as [[Ha' Hi]|[-> ->]], (Hsplit j b Hb) as [[Hb' Hj]|[-> ->]].
    + eapply Hl; eauto.
    + apply Hx. eapply nth_error_In; eauto.
    + apply compat_sym, Hx. eapply nth_error_In; eauto.
    + lia.
Qed.

Lemma table_sound_cons x l :
  table_sound (x :: l) <-> (forall y, In y l -> compat x y) /\ table_sound l.
Proof.
  split.
  - intros H. split.
    + intros y Hy. apply In_nth_error in Hy. destruct Hy as [n Hn].
      apply (H O (S n)); auto.
    + intros i j a b Hij Ha Hb. apply (H (S i) (S j)); auto.
  - intros [Hx Hl] [|i] [|j] a b Hij Ha Hb; simpl in *.
    + lia.
    + injection Ha as <-. apply Hx. eapply nth_error_In; eauto.
    + injection Hb as <-. apply compat_sym, Hx. eapply nth_error_In; eauto.
    + apply (Hl i j); auto.
Qed.

Lemma table_sound_filter f l : table_sound l -> table_sound (filter f l).
Proof.
  induction l as [|x l IH]; simpl; auto. rewrite table_sound_cons. intros [Hx Hl].
  destruct (f x); auto. apply table_sound_cons. split; auto.
  intros y Hy. apply filter_In in Hy. apply Hx. tauto.
Qed.

Lemma delete_match_split locks h st en locks' :
  delete_match locks h st en = Some locks' ->
  exists l1 lk l2, locks = l1 ++ lk :: l2 /\ locks' = l1 ++ l2
    /\ lk_handle lk = h /\ lk_start lk = st /\ lk_end lk = en
    /\ (forall x, In x l1 -> ~ (lk_handle x = h /\ lk_start x = st /\ lk_end x = en)).
Proof.
  revert locks'. induction locks as [|lk rest IH]; simpl; [discriminate|]. intros locks'.
  assert (forall a b, oz_eqb a b = true <-> a = b) as Hoz.
  { intros [a|] [b|]; simpl; rewrite ?Z.eqb_eq; split; congruence. }
  destruct ((lk_handle lk =? h) && (lk_start lk =? st) && oz_eqb (lk_end lk) en) eqn:E.
  - intros H. injection H as <-. rewrite !andb_true_iff, Hoz in E.
    exists [], lk, rest. repeat split; auto; try lia. tauto.
  - destruct (delete_match rest h st en) as [rest'|] eqn:Ed; [|discriminate].
    intros H. injection H as <-. destruct (IH rest' eq_refl) as (l1 & x & l2 & -> & -> & A & B & C & D).
    exists (lk :: l1), x, l2. repeat split; auto.
    intros y [<-|Hy]; auto. intros (H1 & H2 & H3).
    assert (oz_eqb (lk_end lk) en = true) as Ho by now apply Hoz.
    rewrite Ho in E. lia.
Qed.

Lemma delete_match_none locks h st en :
  delete_match locks h st en = None ->
  forall x, In x locks -> ~ (lk_handle x = h /\ lk_start x = st /\ lk_end x = en).
Proof.
  assert (forall a b, oz_eqb a b = true <-> a = b) as Hoz.
  { intros [a|] [b|]; simpl; rewrite ?Z.eqb_eq; split; congruence. }
  induction locks as [|lk rest IH]; simpl; [intros _ x []|].
  destruct ((lk_handle lk =? h) && (lk_start lk =? st) && oz_eqb (lk_end lk) en) eqn:E; [discriminate|].
  destruct (delete_match rest h st en) eqn:Ed; [discriminate|]. intros _ x [<-|Hx]; auto.
  intros (H1 & H2 & H3). assert (oz_eqb (lk_end lk) en = true) as Ho by now apply Hoz.
  rewrite Ho in E. lia.
Qed.

Lemma table_sound_remove l1 lk l2 : table_sound (l1 ++ lk :: l2) -> table_sound (l1 ++ l2).
Proof.
  induction l1 as [|x l1 IH]; simpl.
  - rewrite table_sound_cons. tauto.
  - rewrite !table_sound_cons. intros [Hx Hl]. split; auto.
    intros y Hy. apply Hx. apply in_app_or in Hy. apply in_or_app. simpl. tauto.
Qed.

(** ** try_locking_range *)
Definition locks_of (r : registry) (u : uid) : list lockrec :=
  match r_map r u with Some e => e_locks e | None => [] end.
Definition data_of (r : registry) (u : uid) : list Z :=
  match r_map r u with Some e => e_data e | None => [] end.
Definition waiting_of (r : registry) (u : uid) : Z :=
  match r_map r u with Some e => e_waiting e | None => 0 end.

Lemma ensure_props r u b r1 :
  ensure_entry_exists r u = (b, r1) ->
  r_pid r1 = r_pid r /\ (exists e, r_map r1 u = Some e)
  /\ (forall v, locks_of r1 v = locks_of r v /\ data_of r1 v = data_of r v /\ waiting_of r1 v = waiting_of r v)
  /\ (forall v, v <> u -> r_map r1 v = r_map r v)
  /\ (forall e, r_map r u = Some e -> r1 = r).
Proof.
  unfold ensure_entry_exists. destruct (r_map r u) as [e|] eqn:E; intros H; injection H as <- <-.
  - split; auto. split; eauto.
  - split; auto. split; [rewrite reg_set_eq; eauto|]. split; [|split].
    + intros v. unfold locks_of, data_of, waiting_of. destruct (uid_dec u v) as [<-|Hn].
      * rewrite reg_set_eq, E. auto.
      * rewrite reg_set_neq by auto. auto.
    + intros v Hv. rewrite reg_set_neq; auto.
    + congruence.
Qed.

Inductive lock_case (r : registry) (u : uid) (h : Z) (len : option Z) (st : Z) (sh : bool)
  : res bool -> registry -> Prop :=
| LC_granted r' :
    (forall lk, In lk (locks_of r u) ->
        ~ conflicts_same lk h st (range_end st len) /\ ~ conflicts_other lk h st (range_end st len) sh) ->
    locks_of r' u = locks_of r u ++ [mkLock h sh st (range_end st len)] ->
    lock_case r u h len st sh (Ok true) r'
| LC_busy r' lk :
    In lk (locks_of r u) -> conflicts_other lk h st (range_end st len) sh ->
    locks_of r' u = locks_of r u ->
    lock_case r u h len st sh (Ok false) r'
| LC_same r' lk :
    In lk (locks_of r u) -> conflicts_same lk h st (range_end st len) ->
    locks_of r' u = locks_of r u ->
    lock_case r u h len st sh (Err ERuntime) r'.

Lemma try_locking_cases r u h len st sh o r' :
  try_locking_range r u h len st sh = (o, r') ->
  lock_case r u h len st sh o r'
  /\ r_pid r' = r_pid r
  /\ (exists e, r_map r' u = Some e)
  /\ (forall v, v <> u -> r_map r' v = r_map r v)
  /\ (forall v, data_of r' v = data_of r v /\ waiting_of r' v = waiting_of r v).
Proof.
  unfold try_locking_range.
  destruct (ensure_entry_exists r u) as [b r1] eqn:E1.
  destruct (ensure_props _ _ _ _ E1) as (P1 & (e & Ee) & P3 & P4 & _).
  rewrite Ee.
  assert (locks_of r u = e_locks e) as EL.
  { destruct (P3 u) as (X & _). rewrite <- X. unfold locks_of. now rewrite Ee. }
  destruct (scan_locks (e_locks e) h st (range_end st len) sh) eqn:Es; intros H; injection H as <- <-.
  - split; [|split; [|split; [|split]]].
    + apply LC_granted.
      * rewrite EL. now apply scan_free.
      * unfold locks_of at 1. rewrite reg_set_eq. simpl. now rewrite EL.
    + exact P1.
    + rewrite reg_set_eq. eauto.
    + intros v Hv. rewrite reg_set_neq by auto. auto.
    + intros v. destruct (uid_dec u v) as [<-|Hn].
      * destruct (P3 u) as (_ & X & Y). rewrite <- X, <- Y. unfold data_of, waiting_of.
        rewrite reg_set_eq, Ee. auto.
      * destruct (P3 v) as (_ & X & Y). rewrite <- X, <- Y. unfold data_of, waiting_of.
        rewrite reg_set_neq by auto. auto.
  - destruct (scan_busy_ex _ _ _ _ _ Es) as (lk & Hin & Hc).
    split; [|split; [|split; [|split]]]; eauto.
    + eapply LC_busy; eauto; [now rewrite EL|apply P3].
    + intros v. destruct (P3 v) as (_ & X & Y). auto.
  - destruct (scan_same_ex _ _ _ _ _ Es) as (lk & Hin & Hc).
    split; [|split; [|split; [|split]]]; eauto.
    + eapply LC_same; eauto; [now rewrite EL|apply P3].
    + intros v. destruct (P3 v) as (_ & X & Y). auto.
Qed.

Lemma not_conflict_compat lk h st en sh :
  ~ conflicts_same lk h st en -> ~ conflicts_other lk h st en sh -> compat lk (mkLock h sh st en).
Proof.
  intros Hs Ho Hb. simpl in *.
  destruct (Z.eq_dec (lk_handle lk) h) as [E|E].
  - exfalso. apply Hs. split; auto.
  - split; auto. destruct (lk_shared lk) eqn:E1, sh eqn:E2; auto;
      exfalso; apply Ho; (split; [auto|split; [rewrite ?E1; intros [? ?]; congruence|auto]]).
Qed.

(** ** Histories of registry operations *)
Inductive rop : Type :=
| RRegister (u : uid) (h : Z) (len : option Z) (st : Z) (sh : bool)
| RUnregister (u : uid) (h : Z) (len : option Z) (st : Z)
| RRemove (u : uid) (h : Z)
| RTryDelete (u : uid)
| RAddData (u : uid) (d : Z)
| RTakeData (u : uid)
| RWaiting (u : uid) (d : Z)
| RForked (newpid : Z).

Definition run_rop (s : Z * registry) (o : rop) : Z * registry :=
  let '(pid, r) := s in
  match o with
  | RRegister u h len st sh => (pid, snd (register_once true pid r u h len st sh))
  | RUnregister u h len st => (pid, snd (fst (unregister_file_lock pid r u h len st)))
  | RRemove u h => (pid, snd (remove_file_locks pid r u h))
  | RTryDelete u => (pid, snd (try_deleting_unique_id_entry pid r u))
  | RAddData u d => (pid, snd (add_unique_id_data pid r u d))
  | RTakeData u => (pid, snd (remove_unique_id_data pid r u))
  | RWaiting u d => (pid, match add_waiting r u d with Ok r' => r' | Err _ => r end)
  | RForked p => (p, r)
  end.

Definition reg_sound (r : registry) : Prop := forall u, table_sound (locks_of r u).

Lemma check_forking_sound pid r : reg_sound r -> reg_sound (check_forking pid r).
Proof.
  unfold check_forking. destruct (pid =? r_pid r); auto. intros _ u. apply table_sound_nil.
Qed.

Lemma set_sound r u e : reg_sound r -> table_sound (match e with Some e => e_locks e | None => [] end) ->
  reg_sound (reg_set r u e).
Proof.
  intros Hr He v. unfold locks_of. destruct (uid_dec u v) as [<-|Hn].
  - rewrite reg_set_eq. exact He.
  - rewrite reg_set_neq by auto. apply Hr.
Qed.

Lemma sound_entry r u e : reg_sound r -> r_map r u = Some e -> table_sound (e_locks e).
Proof. intros H E. specialize (H u). unfold locks_of in H. now rewrite E in H. Qed.

Lemma try_locking_sound r u h len st sh o r' :
  reg_sound r -> try_locking_range r u h len st sh = (o, r') -> reg_sound r'.
Proof.
  intros Hr E v. destruct (try_locking_cases _ _ _ _ _ _ _ _ E) as (C & _ & _ & Hother & _).
  destruct (uid_dec v u) as [->|Hn].
  - inversion C; subst.
    + rewrite H0. apply table_sound_app_one. split; auto. intros y Hy. apply H in Hy.
      apply not_conflict_compat; tauto.
    + rewrite H1. apply Hr.
    + rewrite H1. apply Hr.
  - unfold locks_of. rewrite Hother by auto. apply Hr.
Qed.

Lemma try_unlocking_sound r u h len st o r' n :
  reg_sound r -> try_unlocking_range r u h len st = (o, r', n) -> reg_sound r'.
Proof.
  unfold try_unlocking_range. intros Hr.
  destruct (r_map r u) as [e|] eqn:E; [|intros H; injection H as <- <- <-; auto].
  destruct (delete_match (e_locks e) h st (range_end st len)) as [l'|] eqn:Ed;
    intros H; injection H as <- <- <-; auto.
  apply set_sound; auto. simpl.
  destruct (delete_match_split _ _ _ _ _ Ed) as (l1 & lk & l2 & Eq & -> & _).
  apply table_sound_remove with lk. rewrite <- Eq. eapply sound_entry; eauto.
Qed.

Lemma run_rop_sound pid r o : reg_sound r -> reg_sound (snd (run_rop (pid, r) o)).
Proof.
  intros Hr. destruct o; simpl; auto.
  - unfold register_once.
    destruct (try_locking_range (check_forking pid r) u h len st sh) as [x r'] eqn:E.
    simpl. eapply try_locking_sound; [|exact E]. now apply check_forking_sound.
  - unfold unregister_file_lock.
    destruct (try_unlocking_range (check_forking pid r) u h len st) as [[x r'] n] eqn:E.
    simpl. eapply try_unlocking_sound; [|exact E]. now apply check_forking_sound.
  - unfold remove_file_locks. pose proof (check_forking_sound pid r Hr) as Hc.
    destruct (r_map (check_forking pid r) u) as [e|] eqn:E; simpl; auto.
    apply set_sound; auto. apply table_sound_filter. eapply sound_entry; eauto.
  - unfold try_deleting_unique_id_entry. pose proof (check_forking_sound pid r Hr) as Hc.
    destruct (r_map (check_forking pid r) u) as [e|] eqn:E; simpl; auto.
    destruct (_ || _); simpl; auto. apply set_sound; auto. apply table_sound_nil.
  - unfold add_unique_id_data. destruct (d =? 0); simpl; auto.
    pose proof (check_forking_sound pid r Hr) as Hc.
    destruct (ensure_entry_exists (check_forking pid r) u) as [b r2] eqn:E2.
    destruct (ensure_props _ _ _ _ E2) as (_ & (e & Ee) & P3 & _). rewrite Ee. simpl.
    assert (reg_sound r2) as H2. { intros v. destruct (P3 v) as (-> & _). apply Hc. }
    apply set_sound; auto. simpl. eapply sound_entry; eauto.
  - unfold remove_unique_id_data. pose proof (check_forking_sound pid r Hr) as Hc.
    destruct (r_map (check_forking pid r) u) as [e|] eqn:E; simpl; auto.
    apply set_sound; auto. simpl. eapply sound_entry; eauto.
  - unfold add_waiting. destruct (r_map r u) as [e|] eqn:E; auto.
    apply set_sound; auto. simpl. eapply sound_entry; eauto.
Qed.

Lemma run_sound ops pid r : reg_sound r -> reg_sound (snd (fold_left run_rop ops (pid, r))).
Proof.
  revert pid r. induction ops as [|o ops IH]; intros pid r Hr; cbn [fold_left]; auto.
  destruct (run_rop (pid, r) o) as [pid' r'] eqn:E.
  apply IH. change r' with (snd (pid', r')). rewrite <- E. now apply run_rop_sound.
Qed.

Lemma empty_reg_sound pid : reg_sound (mkReg pid empty_map).
Proof. intros u. apply table_sound_nil. Qed.
