(** Effects of the registry operations as seen by a running process. *)
From Coq Require Import ZArith List Bool Lia ZifyBool.
From Verif Require Import M_Base M_Registry S_Locks P_Registry.
Import ListNotations.
Open Scope Z_scope.

Definition EL (p : Z) (r : registry) (u : uid) := locks_of (check_forking p r) u.
Definition ED (p : Z) (r : registry) (u : uid) := data_of (check_forking p r) u.
Definition EW (p : Z) (r : registry) (u : uid) := waiting_of (check_forking p r) u.

Lemma cf_own p r : r_pid r = p -> check_forking p r = r.
Proof. intros <-. unfold check_forking. now rewrite Z.eqb_refl. Qed.
Lemma cf_pid p r : r_pid (check_forking p r) = p.
Proof. unfold check_forking. destruct (p =? r_pid r) eqn:E; simpl; auto. lia. Qed.
Lemma cf_idem p r : check_forking p (check_forking p r) = check_forking p r.
Proof. apply cf_own, cf_pid. Qed.

Definition same_views (p : Z) (r r' : registry) : Prop :=
  forall v, EL p r' v = EL p r v /\ ED p r' v = ED p r v /\ EW p r' v = EW p r v.

Lemma cf_same p r : same_views p r (check_forking p r).
Proof. intros v. unfold EL, ED, EW. rewrite cf_idem. auto. Qed.

(** A registry whose entry [u] is replaced. *)
Lemma set_views p r u e :
  r_pid r = p ->
  (forall v, EL p (reg_set r u e) v = if uid_eqb u v then match e with Some e => e_locks e | None => [] end else EL p r v)
  /\ (forall v, ED p (reg_set r u e) v = if uid_eqb u v then match e with Some e => e_data e | None => [] end else ED p r v)
  /\ (forall v, EW p (reg_set r u e) v = if uid_eqb u v then match e with Some e => e_waiting e | None => 0 end else EW p r v).
Proof.
  intros Hp. unfold EL, ED, EW. rewrite !cf_own by auto.
  unfold locks_of, data_of, waiting_of.
  split; [|split]; intros v; destruct (uid_eqb u v) eqn:E;
    first [ apply uid_eqb_eq in E; subst v; now rewrite reg_set_eq
          | apply uid_eqb_neq in E; now rewrite reg_set_neq by auto ].
Qed.

Lemma register_eff p r u h len st sh o r' :
  register_once true p r u h len st sh = (o, r') ->
  r_pid r' = p
  /\ (forall v, ED p r' v = ED p r v) /\ (forall v, EW p r' v = EW p r v)
  /\ (forall v, v <> u -> EL p r' v = EL p r v)
  /\ (exists e, r_map r' u = Some e)
  /\ ((o = Ok true /\ EL p r' u = EL p r u ++ [mkLock h sh st (range_end st len)]
       /\ (forall lk, In lk (EL p r u) -> ~ conflicts_same lk h st (range_end st len)
                                          /\ ~ conflicts_other lk h st (range_end st len) sh))
      \/ (o = Ok false /\ EL p r' u = EL p r u
          /\ exists lk, In lk (EL p r u) /\ conflicts_other lk h st (range_end st len) sh)
      \/ (o = Err ERuntime /\ EL p r' u = EL p r u
          /\ exists lk, In lk (EL p r u) /\ conflicts_same lk h st (range_end st len))).
Proof.
  unfold register_once. intros E. apply try_locking_cases in E. destruct E as (C & P1 & P2 & P3 & P4).
  rewrite cf_pid in P1.
  unfold EL, ED, EW. rewrite (cf_own p r') by auto.
  split; [auto|]. split; [intros v; apply P4|]. split; [intros v; apply P4|].
  split. { intros v Hv. unfold locks_of. now rewrite P3. }
  split; auto.
  inversion C; subst; [left|right; left|right; right]; eauto 10.
Qed.

Lemma unregister_eff p r u h len st o r' n :
  unregister_file_lock p r u h len st = (o, r', n) ->
  r_pid r' = p
  /\ (forall v, ED p r' v = ED p r v) /\ (forall v, EW p r' v = EW p r v)
  /\ (forall v, v <> u -> EL p r' v = EL p r v)
  /\ ((o = Ok true /\ n = false /\ EL p r u = [] /\ EL p r' u = [])
      \/ (exists x l1 lk l2, o = Ok x /\ n = true /\ EL p r u = l1 ++ lk :: l2 /\ EL p r' u = l1 ++ l2
            /\ lk_handle lk = h /\ lk_start lk = st /\ lk_end lk = range_end st len)
      \/ (exists x, o = Err x /\ n = false /\ EL p r' u = EL p r u
            /\ forall lk, In lk (EL p r u) -> lk_handle lk = h -> lk_start lk = st -> lk_end lk = range_end st len -> False)).
Proof.
  unfold unregister_file_lock, try_unlocking_range.
  pose proof (cf_pid p r) as Hp. set (r0 := check_forking p r) in *.
  destruct (r_map r0 u) as [e|] eqn:Eu.
  - destruct (delete_match (e_locks e) h st (range_end st len)) as [l'|] eqn:Ed; intros H; injection H as <- <- <-.
    + destruct (set_views p r0 u (Some (mkEntry l' (e_data e) (e_waiting e))) Hp) as (V1 & V2 & V3).
      assert (forall v, EL p r0 v = EL p r v /\ ED p r0 v = ED p r v /\ EW p r0 v = EW p r v) as S0 by apply cf_same.
      split; [exact Hp|]. split.
      { intros v. rewrite V2. destruct (uid_eqb u v) eqn:E; [|apply S0].
        apply uid_eqb_eq in E; subst v. unfold ED. fold r0. unfold data_of. now rewrite Eu. }
      split.
      { intros v. rewrite V3. destruct (uid_eqb u v) eqn:E; [|apply S0].
        apply uid_eqb_eq in E; subst v. unfold EW. fold r0. unfold waiting_of. now rewrite Eu. }
      split.
      { intros v Hv. rewrite V1. replace (uid_eqb u v) with false; [apply S0|]. symmetry. apply uid_eqb_neq; auto. }
      right; left. destruct (delete_match_split _ _ _ _ _ Ed) as (l1 & lk & l2 & E1 & E2 & E3 & E4 & E5 & _).
      eexists _, l1, lk, l2. split; [reflexivity|]. split; auto. split.
      { unfold EL. fold r0. unfold locks_of. rewrite Eu. auto. }
      split; [rewrite V1, uid_eqb_refl; auto|auto].
    + assert (forall v, EL p r0 v = EL p r v /\ ED p r0 v = ED p r v /\ EW p r0 v = EW p r v) as S0 by apply cf_same.
      split; [exact Hp|]. split; [intros v; apply S0|]. split; [intros v; apply S0|]. split; [intros v _; apply S0|].
      right; right. eexists. split; [reflexivity|]. split; auto. split; [apply S0|].
      intros lk Hin X Y Z. unfold EL in Hin. fold r0 in Hin. unfold locks_of in Hin. rewrite Eu in Hin.
      exact (delete_match_none _ _ _ _ Ed lk Hin (conj X (conj Y Z))).
  - intros H; injection H as <- <- <-.
    assert (forall v, EL p r0 v = EL p r v /\ ED p r0 v = ED p r v /\ EW p r0 v = EW p r v) as S0 by apply cf_same.
    split; [exact Hp|]. split; [intros v; apply S0|]. split; [intros v; apply S0|]. split; [intros v _; apply S0|].
    left. split; auto. split; auto.
    assert (EL p r u = []) as E0. { unfold EL. fold r0. unfold locks_of. now rewrite Eu. }
    split; auto. destruct (S0 u) as (-> & _). auto.
Qed.

Lemma remove_eff p r u h removed r' :
  remove_file_locks p r u h = (removed, r') ->
  r_pid r' = p
  /\ (forall v, ED p r' v = ED p r v) /\ (forall v, EW p r' v = EW p r v)
  /\ (forall v, v <> u -> EL p r' v = EL p r v)
  /\ removed = filter (fun lk => lk_handle lk =? h) (EL p r u)
  /\ EL p r' u = filter (fun lk => negb (lk_handle lk =? h)) (EL p r u).
Proof.
  unfold remove_file_locks.
  pose proof (cf_pid p r) as Hp. set (r0 := check_forking p r) in *.
  assert (forall v, EL p r0 v = EL p r v /\ ED p r0 v = ED p r v /\ EW p r0 v = EW p r v) as S0 by apply cf_same.
  destruct (r_map r0 u) as [e|] eqn:Eu; intros H; injection H as <- <-.
  - match goal with |- context [reg_set r0 u ?x] => destruct (set_views p r0 u x Hp) as (V1 & V2 & V3) end.
    assert (EL p r u = e_locks e) as E1. { unfold EL. fold r0. unfold locks_of. now rewrite Eu. }
    assert (ED p r u = e_data e) as E2. { unfold ED. fold r0. unfold data_of. now rewrite Eu. }
    assert (EW p r u = e_waiting e) as E3. { unfold EW. fold r0. unfold waiting_of. now rewrite Eu. }
    split; [exact Hp|]. split.
    { intros v. rewrite V2. destruct (uid_eqb u v) eqn:E; [|apply S0]. apply uid_eqb_eq in E; subst v. auto. }
    split.
    { intros v. rewrite V3. destruct (uid_eqb u v) eqn:E; [|apply S0]. apply uid_eqb_eq in E; subst v. auto. }
    split.
    { intros v Hv. rewrite V1. replace (uid_eqb u v) with false; [apply S0|]. symmetry. apply uid_eqb_neq; auto. }
    rewrite V1, uid_eqb_refl, E1. auto.
  - assert (EL p r u = []) as E0. { unfold EL. fold r0. unfold locks_of. now rewrite Eu. }
    split; [exact Hp|]. split; [intros v; apply S0|]. split; [intros v; apply S0|]. split; [intros v _; apply S0|].
    destruct (S0 u) as (-> & _). rewrite E0. auto.
Qed.

Lemma trydel_eff p r u b r' :
  try_deleting_unique_id_entry p r u = (b, r') -> same_views p r r'.
Proof.
  unfold try_deleting_unique_id_entry.
  pose proof (cf_pid p r) as Hp. set (r0 := check_forking p r) in *.
  assert (same_views p r r0) as S0 by apply cf_same.
  destruct (r_map r0 u) as [e|] eqn:Eu; [|intros H; injection H as <- <-; auto].
  destruct (negb (is_nil (e_locks e)) || negb (is_nil (e_data e)) || negb (e_waiting e =? 0)) eqn:Ec;
    intros H; injection H as <- <-; auto.
  rewrite !orb_false_iff, !negb_false_iff in Ec. destruct Ec as [[C1 C2] C3].
  destruct (set_views p r0 u None Hp) as (V1 & V2 & V3).
  intros v. rewrite V1, V2, V3. destruct (uid_eqb u v) eqn:E; [|apply S0].
  apply uid_eqb_eq in E; subst v. unfold EL, ED, EW. fold r0. unfold locks_of, data_of, waiting_of. rewrite Eu.
  destruct (e_locks e), (e_data e); try discriminate. apply Z.eqb_eq in C3. auto.
Qed.

Lemma adddata_eff p r u d :
  d <> 0 -> exists r', add_unique_id_data p r u d = (Ok tt, r')
  /\ (forall v, EL p r' v = EL p r v) /\ (forall v, EW p r' v = EW p r v)
  /\ (forall v, v <> u -> ED p r' v = ED p r v) /\ ED p r' u = ED p r u ++ [d].
Proof.
  intros Hd. unfold add_unique_id_data. apply Z.eqb_neq in Hd. rewrite Hd.
  pose proof (cf_pid p r) as Hp. set (r0 := check_forking p r) in *.
  assert (same_views p r r0) as S0 by apply cf_same.
  destruct (ensure_entry_exists r0 u) as [b r2] eqn:E2.
  destruct (ensure_props _ _ _ _ E2) as (P1 & (e & Ee) & P3 & P4 & _). rewrite Ee.
  assert (r_pid r2 = p) as Hp2 by congruence.
  match goal with |- context [reg_set r2 u ?x] => destruct (set_views p r2 u x Hp2) as (V1 & V2 & V3) end.
  assert (same_views p r r2) as S2.
  { intros v. destruct (P3 v) as (A & B & C). destruct (S0 v) as (A0 & B0 & C0).
    unfold EL, ED, EW in *. rewrite (cf_own p r2) by auto. rewrite A, B, C. fold r0. auto. }
  assert (EL p r u = e_locks e /\ ED p r u = e_data e /\ EW p r u = e_waiting e) as (F1 & F2 & F3).
  { destruct (S2 u) as (<- & <- & <-). unfold EL, ED, EW. rewrite cf_own by auto.
    unfold locks_of, data_of, waiting_of. rewrite Ee. auto. }
  eexists. split; [reflexivity|]. split; [|split; [|split]].
  - intros v. rewrite V1. destruct (uid_eqb u v) eqn:E; [|apply S2]. apply uid_eqb_eq in E; subst v. auto.
  - intros v. rewrite V3. destruct (uid_eqb u v) eqn:E; [|apply S2]. apply uid_eqb_eq in E; subst v. auto.
  - intros v Hv. rewrite V2. replace (uid_eqb u v) with false; [apply S2|]. symmetry. apply uid_eqb_neq; auto.
  - rewrite V2, uid_eqb_refl, F2. auto.
Qed.

Lemma takedata_eff p r u data r' :
  remove_unique_id_data p r u = (data, r') ->
  (forall v, EL p r' v = EL p r v) /\ (forall v, EW p r' v = EW p r v)
  /\ (forall v, v <> u -> ED p r' v = ED p r v) /\ ED p r' u = [] /\ data = ED p r u.
Proof.
  unfold remove_unique_id_data.
  pose proof (cf_pid p r) as Hp. set (r0 := check_forking p r) in *.
  assert (same_views p r r0) as S0 by apply cf_same.
  destruct (r_map r0 u) as [e|] eqn:Eu; intros H; injection H as <- <-.
  - match goal with |- context [reg_set r0 u ?x] => destruct (set_views p r0 u x Hp) as (V1 & V2 & V3) end.
    assert (EL p r u = e_locks e) as E1. { unfold EL. fold r0. unfold locks_of. now rewrite Eu. }
    assert (ED p r u = e_data e) as E2. { unfold ED. fold r0. unfold data_of. now rewrite Eu. }
    assert (EW p r u = e_waiting e) as E3. { unfold EW. fold r0. unfold waiting_of. now rewrite Eu. }
    split; [|split; [|split; [|split]]].
    + intros v. rewrite V1. destruct (uid_eqb u v) eqn:E; [|apply S0]. apply uid_eqb_eq in E; subst v. auto.
    + intros v. rewrite V3. destruct (uid_eqb u v) eqn:E; [|apply S0]. apply uid_eqb_eq in E; subst v. auto.
    + intros v Hv. rewrite V2. replace (uid_eqb u v) with false; [apply S0|]. symmetry. apply uid_eqb_neq; auto.
    + rewrite V2, uid_eqb_refl. auto.
    + auto.
  - assert (ED p r u = []) as E0. { unfold ED. fold r0. unfold data_of. now rewrite Eu. }
    split; [intros v; apply S0|]. split; [intros v; apply S0|]. split; [intros v _; apply S0|].
    destruct (S0 u) as (_ & -> & _). auto.
Qed.

Lemma haslocks_eff p r u b r' :
  unique_id_has_locks p r u = (b, r') -> same_views p r r' /\ (b = false <-> EL p r u = []).
Proof.
  unfold unique_id_has_locks. pose proof (cf_pid p r) as Hp. set (r0 := check_forking p r) in *.
  assert (same_views p r r0) as S0 by apply cf_same.
  intros H; injection H as <- <-. split; auto.
  unfold EL. fold r0. unfold locks_of. destruct (r_map r0 u) as [e|]; [|tauto].
  destruct (e_locks e); simpl; split; congruence.
Qed.

(** The waiter counter: defined whenever the process sees a recorded lock or a waiter. *)
Lemma waiting_eff p r u d :
  r_pid r = p -> (exists e, r_map r u = Some e) ->
  exists r', add_waiting r u d = Ok r' /\ r_pid r' = p
  /\ (forall v, EL p r' v = EL p r v) /\ (forall v, ED p r' v = ED p r v)
  /\ (forall v, EW p r' v = if uid_eqb u v then EW p r u + d else EW p r v).
Proof.
  intros Hp (e & Ee). unfold add_waiting. rewrite Ee. eexists. split; [reflexivity|]. split; [exact Hp|].
  match goal with |- context [reg_set r u ?x] => destruct (set_views p r u x Hp) as (V1 & V2 & V3) end.
  assert (EL p r u = e_locks e /\ ED p r u = e_data e /\ EW p r u = e_waiting e) as (F1 & F2 & F3).
  { unfold EL, ED, EW. rewrite cf_own by auto. unfold locks_of, data_of, waiting_of. rewrite Ee. auto. }
  split; [|split].
  - intros v. rewrite V1. destruct (uid_eqb u v) eqn:E; auto. apply uid_eqb_eq in E; subst v. auto.
  - intros v. rewrite V2. destruct (uid_eqb u v) eqn:E; auto. apply uid_eqb_eq in E; subst v. auto.
  - intros v. rewrite V3. destruct (uid_eqb u v) eqn:E; auto. simpl. now rewrite F3.
Qed.

Lemma waiting_own p r u : EW p r u <> 0 -> r_pid r = p /\ exists e, r_map r u = Some e.
Proof.
  unfold EW, check_forking. destruct (p =? r_pid r) eqn:E.
  - unfold waiting_of. destruct (r_map r u); [|congruence]. intros _. split; [lia|eauto].
  - unfold waiting_of; simpl. congruence.
Qed.
