(** C105: waiting for a lock through the thread-safe wrapper. *)
From Coq Require Import ZArith Ascii String List Bool Arith Lia.
From Verif Require Import M_Base M_Modes M_Registry M_Kernel M_World M_Raw M_Waiting M_Mutexed S_Mutexed S_Demo P_Threads.
Import ListNotations.
Open Scope nat_scope.

(** * The mutex has one holder *)
Lemma combine_seq {A} (l : list A) : forall k q a, In (q, a) (combine (seq k (List.length l)) l) <-> (k <= q /\ nth_error l (q - k) = Some a).
Proof.
  induction l as [|x l IH]; intros k q a; cbn [List.length seq combine In].
  - split; [contradiction|]. intros [_ H]. destruct (q - k); discriminate.
  - rewrite IH. split.
    + intros [[= -> ->]|[H1 H2]].
      * split; [lia|]. now rewrite Nat.sub_diag.
      * split; [lia|]. replace (q - k) with (S (q - S k)) by lia. exact H2.
    + intros [H1 H2]. destruct (Nat.eq_dec q k) as [->|N].
      * left. rewrite Nat.sub_diag in H2. cbn in H2. congruence.
      * right. split; [lia|]. replace (q - k) with (S (q - S k)) in H2 by lia. exact H2.
Qed.
Lemma others_spec p ok l : others_all p ok l = true <-> forall q a, nth_error l q = Some a -> q <> p -> ok a = true.
Proof.
  unfold others_all. rewrite forallb_forall. split.
  - intros H q a E N. specialize (H (q, a)). cbn [fst snd] in H. apply orb_true_iff in H; [|apply combine_seq; rewrite Nat.sub_0_r; split; [lia|exact E]].
    destruct H as [H|H]; [apply Nat.eqb_eq in H; contradiction|exact H].
  - intros H [q a] I. apply combine_seq in I as [_ E]. rewrite Nat.sub_0_r in E. cbn [fst snd]. destruct (q =? p) eqn:X; [reflexivity|].
    apply Nat.eqb_neq in X. cbn. eauto.
Qed.
Lemma others_false p ok l : others_all p ok l = false -> exists q a, nth_error l q = Some a /\ q <> p /\ ok a = false.
Proof.
  unfold others_all. intros H. assert (X : exists x, In x (combine (seq 0 (List.length l)) l) /\ (fst x =? p) || ok (snd x) = false).
  { induction (combine (seq 0 (List.length l)) l) as [|x r IH]; [discriminate|]. cbn in H. apply andb_false_iff in H as [H|H].
    - exists x. split; [now left|exact H].
    - destruct (IH H) as (y & Y1 & Y2). exists y. split; [now right|exact Y2]. }
  destruct X as ([q a] & X1 & X2). cbn [fst snd] in X2. apply combine_seq in X1 as [_ X1]. rewrite Nat.sub_0_r in X1.
  apply orb_false_iff in X2 as [X2 X3]. apply Nat.eqb_neq in X2. eauto.
Qed.

Definition exclusive (l : list party) : Prop :=
  forall p q a b, p <> q -> nth_error l p = Some a -> nth_error l q = Some b -> pa_mutex a = pa_mutex b -> owns a = true -> owns b = false.
Lemma excl_available l p a : exclusive l -> nth_error l p = Some a -> owns a = true -> available p (pa_mutex a) l = true.
Proof.
  intros X E O. apply others_spec. intros q b Eq N. apply negb_true_iff, andb_false_iff. destruct (pa_mutex b =? pa_mutex a) eqn:M; [|now left].
  right. apply Nat.eqb_eq in M. exact (X p q a b (not_eq_sym N) E Eq (eq_sym M) O).
Qed.
Lemma not_available l p m : available p m l = false -> exists q b, nth_error l q = Some b /\ q <> p /\ pa_mutex b = m /\ owns b = true.
Proof.
  intros H. apply others_false in H as (q & b & E & N & H). apply negb_false_iff, andb_true_iff in H as [H1 H2]. apply Nat.eqb_eq in H1. eauto 8.
Qed.
Lemma excl_update l p a b : exclusive l -> nth_error l p = Some a -> pa_mutex b = pa_mutex a ->
  owns b = false \/ owns a = true \/ available p (pa_mutex a) l = true -> exclusive (nth_update l p b).
Proof.
  intros X E M H q r c d N Eq Er Mq Oq.
  destruct (Nat.eq_dec q p) as [->|Nq].
  - rewrite (nth_update_at _ _ _ _ E) in Eq. injection Eq as <-. rewrite nth_update_off in Er by auto.
    destruct H as [H|[H|H]]; [congruence| |].
    + eapply (X p r a d); eauto. congruence.
    + unfold available in H. rewrite others_spec in H. specialize (H r d Er ltac:(auto)). apply negb_true_iff, andb_false_iff in H as [H|H]; [|exact H].
      apply Nat.eqb_neq in H. congruence.
  - rewrite nth_update_off in Eq by auto. destruct (Nat.eq_dec r p) as [->|Nr].
    + rewrite (nth_update_at _ _ _ _ E) in Er. injection Er as <-. destruct H as [H|[H|H]]; [exact H| |].
      * rewrite (X p q a c ltac:(auto) E Eq ltac:(congruence) H) in Oq. discriminate.
      * unfold available in H. rewrite others_spec in H. specialize (H q c Eq Nq). rewrite Oq in H. replace (pa_mutex c =? pa_mutex a) with true in H; [discriminate|].
        symmetry. apply Nat.eqb_eq. congruence.
    + rewrite nth_update_off in Er by auto. eapply (X q r); eauto.
Qed.

(** * Steps *)
Definition stage_left (st : stage) (s : section) : nat :=
  match st with Before => 4 + se_calls s | Entered => 3 + se_calls s | Waiting => 2 + se_calls s | Inside n => 1 + n end.
Definition left_of (a : party) : nat :=
  match pa_todo a with [] => 0 | s :: r => stage_left (pa_stage a) s + list_sum (map work_in r) end.
Definition left (l : list party) : nat := list_sum (map left_of l).
Lemma left_update l p a b : nth_error l p = Some a -> left_of b < left_of a -> left (nth_update l p b) < left l.
Proof.
  unfold left. revert p. induction l as [|x l IH]; intros [|p] E H; cbn in E; try discriminate; cbn [nth_update map list_sum fold_right].
  - injection E as ->. lia.
  - specialize (IH p E H). unfold list_sum in IH |- *. lia.
Qed.
Lemma finish_left a s r st : pa_todo a = s :: r -> pa_stage a = st -> left_of (finish a) < left_of a.
Proof.
  intros E <-. unfold left_of, finish. rewrite E. cbn [tl pa_todo pa_stage]. assert (X : 0 < stage_left (pa_stage a) s) by (destruct (pa_stage a); cbn; lia).
  destruct r as [|s' r]; [cbn; lia|]. cbn [map list_sum fold_right stage_left]. unfold work_in at 2. unfold list_sum. lia.
Qed.

Record moved (l : list party) (p : nat) (a b : party) : Prop := mkMoved {
  mv_at : nth_error l p = Some a;
  mv_mutex : pa_mutex b = pa_mutex a;
  mv_todo : pa_todo b = pa_todo a \/ pa_todo b = tl (pa_todo a);
  mv_owns : owns b = false \/ owns a = true \/ available p (pa_mutex a) l = true;
  mv_left : left_of b < left_of a }.
Lemma finish_moved l p a s r : nth_error l p = Some a -> pa_todo a = s :: r -> moved l p a (finish a).
Proof.
  intros E T. constructor; auto.
  - left. unfold owns, finish. cbn. now destruct (tl (pa_todo a)).
  - eapply finish_left; eauto.
Qed.
Lemma stage_moved l p a s r st : nth_error l p = Some a -> pa_todo a = s :: r -> stage_left st s < stage_left (pa_stage a) s ->
  (match st with Before => false | Waiting => true | _ => se_guard s end = false \/ owns a = true \/ available p (pa_mutex a) l = true) ->
  moved l p a (at_stage a st).
Proof.
  intros E T L O. constructor; auto.
  - unfold owns at 1. cbn [at_stage pa_todo pa_stage]. rewrite T. exact O.
  - unfold left_of, at_stage. cbn [pa_todo pa_stage]. rewrite T. lia.
Qed.
Lemma move_moved p l l' : move p l = Some l' -> exists a b, moved l p a b /\ l' = nth_update l p b.
Proof.
  unfold move. destruct (nth_error l p) as [a|] eqn:E; [|discriminate]. destruct (pa_todo a) as [|s r] eqn:T; [discriminate|]. cbv zeta.
  assert (F : Some (nth_update l p (finish a)) = Some l' -> exists a b, moved l p a b /\ l' = nth_update l p b).
  { intros [= <-]. exists a, (finish a). split; [eapply finish_moved; eauto|reflexivity]. }
  assert (S_ : forall st, stage_left st s < stage_left (pa_stage a) s ->
     (match st with Before => false | Waiting => true | _ => se_guard s end = false \/ owns a = true \/ available p (pa_mutex a) l = true) ->
     Some (nth_update l p (at_stage a st)) = Some l' -> exists a b, moved l p a b /\ l' = nth_update l p b).
  { intros st H1 H2 [= <-]. exists a, (at_stage a st). split; [eapply stage_moved; eauto|reflexivity]. }
  assert (OW : owns a = match pa_stage a with Before => false | Waiting => true | _ => se_guard s end) by (unfold owns; now rewrite T).
  assert (CL : stage_left Waiting s < stage_left (pa_stage a) s -> (se_guard s = false \/ owns a = true) ->
     match se_want s with
     | None => Some (nth_update l p (at_stage a (Inside (se_calls s))))
     | Some w => if available p (pa_mutex a) l then (if grantable p w l then Some (nth_update l p (at_stage a (Inside (se_calls s)))) else Some (nth_update l p (at_stage a Waiting))) else None
     end = Some l' -> exists a b, moved l p a b /\ l' = nth_update l p b).
  { intros H1 H2. assert (H1' : stage_left (Inside (se_calls s)) s < stage_left (pa_stage a) s) by (cbn in *; lia).
    destruct (se_want s) as [w|]; [|apply S_; [exact H1'|tauto]].
    destruct (available p (pa_mutex a) l) eqn:A; [|discriminate]. destruct (grantable p w l); apply S_; auto. }
  destruct (pa_stage a) as [| | |n] eqn:St.
  - destruct (se_guard s) eqn:G.
    + destruct (available p (pa_mutex a) l) eqn:A; [|discriminate]. apply S_; [cbn; lia|auto].
    + apply CL; [cbn; lia|auto].
  - apply CL; [cbn; lia|]. rewrite OW. destruct (se_guard s); auto.
  - destruct (se_want s) as [w|]; [destruct (grantable p w l)|]; try (apply S_; [cbn; lia|auto]).
    destruct (se_timeout s); [exact F|discriminate].
  - destruct n as [|n].
    + destruct (se_want s); [destruct (se_ctx s); [exact F|destruct (available p (pa_mutex a) l); [exact F|discriminate]]|exact F].
    + destruct (available p (pa_mutex a) l) eqn:A; [|discriminate]. apply S_; [cbn; lia|auto].
Qed.

Lemma step_keeps p l l' : move p l = Some l' -> exclusive l ->
  exclusive l' /\ left l' < left l /\ (shared_mutexes_guarded l -> shared_mutexes_guarded l') /\ (all_time_out l -> all_time_out l').
Proof.
  intros M X. destruct (move_moved _ _ _ M) as (a & b & [E Mu T O W] & ->).
  assert (Sub : forall P, Forall P (pa_todo a) -> Forall P (pa_todo b)).
  { intros P H. destruct T as [T|T]; rewrite T; [exact H|]. destruct (pa_todo a); [exact H|]. now inversion H. }
  split; [eapply excl_update; eauto|]. split; [eapply left_update; eauto|]. split.
  - intros G q r c d N Eq Er Mq. destruct (Nat.eq_dec q p) as [->|Nq].
    + rewrite (nth_update_at _ _ _ _ E) in Eq. injection Eq as <-. rewrite nth_update_off in Er by auto. apply Sub. eapply (G p r a d); eauto. congruence.
    + rewrite nth_update_off in Eq by auto. destruct (Nat.eq_dec r p) as [->|Nr].
      * rewrite (nth_update_at _ _ _ _ E) in Er. injection Er as <-. eapply (G q p c a); eauto. congruence.
      * rewrite nth_update_off in Er by auto. eapply (G q r); eauto.
  - intros G. unfold all_time_out in *. rewrite Forall_forall in *. intros c Hc. apply In_nth_error in Hc as (q & Eq). destruct (Nat.eq_dec q p) as [->|Nq].
    + rewrite (nth_update_at _ _ _ _ E) in Eq. injection Eq as <-. apply Sub, G. eapply nth_error_In; eauto.
    + rewrite nth_update_off in Eq by auto. apply G. eapply nth_error_In; eauto.
Qed.
Lemma start_exclusive l : starting l -> exclusive l.
Proof.
  intros H p q a b _ Ea _ _ O. exfalso. unfold starting in H. rewrite Forall_forall in H. unfold owns in O. rewrite (H a (nth_error_In _ _ Ea)) in O.
  destruct (pa_todo a); discriminate.
Qed.
Lemma start_left l : starting l -> left l = work_left l.
Proof.
  unfold left, work_left. induction 1 as [|a l H _ IH]; [reflexivity|]. cbn [map list_sum fold_right]. unfold list_sum in *. rewrite IH. f_equal.
  unfold left_of. rewrite H. destruct (pa_todo a); reflexivity.
Qed.

(** * Somebody can always go on *)
Lemma can_move l p a : nth_error l p = Some a -> pa_todo a <> [] -> pa_stage a <> Waiting -> available p (pa_mutex a) l = true -> move p l <> None.
Proof.
  intros E T W A. unfold move. rewrite E. destruct (pa_todo a) as [|s r]; [congruence|]. cbv zeta. rewrite A.
  destruct (pa_stage a) as [| | |[|n]]; try congruence; destruct (se_guard s), (se_want s) as [w|]; try destruct (grantable p w l); try destruct (se_ctx s); discriminate.
Qed.
Lemma owner_moves l p a : exclusive l -> nth_error l p = Some a -> owns a = true -> pa_stage a <> Waiting -> move p l <> None.
Proof.
  intros X E O W. eapply can_move; eauto; [|eapply excl_available; eauto]. intros T. unfold owns in O. rewrite T in O. discriminate.
Qed.
Lemma owner_todo a : owns a = true -> pa_todo a <> [].
Proof. unfold owns. destruct (pa_todo a); [discriminate|congruence]. Qed.
Definition waits_for_lock (l : list party) (p : nat) (a : party) : Prop :=
  exists s w r, pa_todo a = s :: r /\ se_want s = Some w /\ grantable p w l = false /\ se_timeout s = false.
Lemma waiting_cases l p a : nth_error l p = Some a -> pa_todo a <> [] -> pa_stage a = Waiting -> move p l <> None \/ waits_for_lock l p a.
Proof.
  intros E T W. unfold move. rewrite E. destruct (pa_todo a) as [|s r] eqn:Et; [congruence|]. cbv zeta. rewrite W.
  destruct (se_want s) as [w|] eqn:Ew; [|left; discriminate]. destruct (grantable p w l) eqn:G; [left; discriminate|].
  destruct (se_timeout s) eqn:To; [left; discriminate|]. right. exists s, w, r. auto.
Qed.
Lemma progress (l : list party) : exclusive l -> (forall p a, nth_error l p = Some a -> pa_stage a = Waiting -> pa_todo a <> [] -> exists q, move q l <> None) ->
  ~ idle_all l -> exists q, move q l <> None.
Proof.
  intros X W N.
  assert (U : exists p a, nth_error l p = Some a /\ pa_todo a <> []).
  { clear X W. induction l as [|x l IH]; [destruct N; constructor|]. destruct (pa_todo x) eqn:T.
    - destruct IH as (p & a & E & H); [intros Y; apply N; now constructor|]. exists (S p), a. auto.
    - exists 0, x. split; [reflexivity|congruence]. }
  destruct U as (p & a & E & T). destruct (available p (pa_mutex a) l) eqn:A.
  - assert (D : pa_stage a = Waiting \/ pa_stage a <> Waiting) by (destruct (pa_stage a); auto; right; discriminate).
    destruct D as [D|D]; [eapply W; eauto|]. exists p. eapply can_move; eauto.
  - apply not_available in A as (o & b & Eo & No & Mo & Oo).
    assert (D : pa_stage b = Waiting \/ pa_stage b <> Waiting) by (destruct (pa_stage b); auto; right; discriminate).
    destruct D as [D|D]; [apply (W o b Eo D), owner_todo, Oo|]. exists o. eapply owner_moves; eauto.
Qed.
Lemma guarded_progress l : exclusive l -> shared_mutexes_guarded l -> ~ idle_all l -> exists q, move q l <> None.
Proof.
  intros X G. apply progress; [exact X|]. intros p a E W T. destruct (waiting_cases l p a E T W) as [M|(s & w & r & _ & _ & Gr & _)]; [eauto|].
  unfold grantable in Gr. apply others_false in Gr as (q & b & Eq & Nq & H). destruct (holding b) as [v|] eqn:Hb; [|discriminate].
  unfold holding in Hb. destruct (pa_todo b) as [|sb rb] eqn:Tb; [discriminate|]. destruct (pa_stage b) as [| | |n] eqn:Sb; try discriminate.
  exists q. destruct (available q (pa_mutex b) l) eqn:A; [eapply can_move; eauto; congruence|].
  exfalso. apply not_available in A as (o & c & Eo & No & Mo & Oo).
  pose proof (G q o b c ltac:(auto) Eq Eo ltac:(congruence)) as F. rewrite Tb in F. inversion F as [|? ? F1 _]; subst.
  assert (Ob : owns b = true) by (unfold owns; rewrite Tb, Sb; exact F1).
  rewrite (X q o b c ltac:(auto) Eq Eo ltac:(congruence) Ob) in Oo. discriminate.
Qed.
Lemma timeout_progress l : exclusive l -> all_time_out l -> ~ idle_all l -> exists q, move q l <> None.
Proof.
  intros X G. apply progress; [exact X|]. intros p a E W T. destruct (waiting_cases l p a E T W) as [M|(s & w & r & Ts & _ & _ & To)]; [eauto|].
  exfalso. unfold all_time_out in G. rewrite Forall_forall in G. pose proof (G a (nth_error_In _ _ E)) as F. rewrite Ts in F. inversion F; congruence.
Qed.
Lemma run_keeps : forall ps l l', moves ps l = Some l' -> exclusive l ->
  exclusive l' /\ List.length ps + left l' <= left l /\ (shared_mutexes_guarded l -> shared_mutexes_guarded l') /\ (all_time_out l -> all_time_out l').
Proof.
  induction ps as [|p ps IH]; intros l l' E X; cbn [moves] in E; [injection E as <-; cbn; auto|].
  destruct (move p l) as [l1|] eqn:M; [|discriminate]. destruct (step_keeps _ _ _ M X) as (X1 & L1 & G1 & T1).
  destruct (IH _ _ E X1) as (X2 & L2 & G2 & T2). split; [exact X2|]. split; [cbn [List.length]; lia|]. auto.
Qed.
Lemma idle_dec l : idle_all l \/ ~ idle_all l.
Proof.
  induction l as [|a l IH]; [left; constructor|]. destruct (pa_todo a) eqn:T; [|right; intros H; inversion H; congruence].
  destruct IH as [IH|IH]; [left; now constructor|]. right. intros H. inversion H. contradiction.
Qed.
Lemma can_finish (P : list party -> Prop) : (forall l, P l -> exclusive l -> ~ idle_all l -> exists q, move q l <> None) ->
  (forall p l l', P l -> exclusive l -> move p l = Some l' -> P l') ->
  forall n l, left l <= n -> P l -> exclusive l -> exists ps l', moves ps l = Some l' /\ idle_all l'.
Proof.
  intros H1 H2. induction n as [|n IH]; intros l L Hp X.
  - destruct (idle_dec l) as [I|I]; [exists [], l; auto|]. destruct (H1 l Hp X I) as (q & M). destruct (move q l) as [l1|] eqn:E; [|congruence].
    destruct (step_keeps _ _ _ E X) as (_ & L1 & _). lia.
  - destruct (idle_dec l) as [I|I]; [exists [], l; auto|]. destruct (H1 l Hp X I) as (q & M). destruct (move q l) as [l1|] eqn:E; [|congruence].
    destruct (step_keeps _ _ _ E X) as (X1 & L1 & _). destruct (IH l1 ltac:(lia) (H2 _ _ _ Hp X E) X1) as (ps & l' & R & D).
    exists (q :: ps), l'. cbn [moves]. rewrite E. auto.
Qed.

(** When users that share a mutex hold it during the whole of each piece of work (in particular when no mutex is shared), they are never
    stuck: from wherever they are, all of them can finish, whoever goes first; and no run is longer than the work there was. *)
Theorem C105_no_deadlock_partial : forall l ps l', starting l -> shared_mutexes_guarded l -> moves ps l = Some l' ->
  ~ stuck l' /\ List.length ps <= work_left l /\ exists ps' l'', moves ps' l' = Some l'' /\ idle_all l''.
Proof.
  intros l ps l' S G E. destruct (run_keeps _ _ _ E (start_exclusive l S)) as (X & L & G' & _). specialize (G' G). split; [|split].
  - intros [N I]. destruct (guarded_progress l' X G' I) as (q & M). apply M, N.
  - rewrite <- (start_left l S). lia.
  - apply (can_finish shared_mutexes_guarded) with (n := left l'); auto.
    + intros; now apply guarded_progress.
    + intros p l1 l2 H X1 M. destruct (step_keeps _ _ _ M X1) as (_ & _ & Y & _). auto.
Qed.
(** The same for any sharing of mutexes when every lock_file() has a timeout (some of them may then give up). *)
Theorem C105_timeouts : forall l ps l', starting l -> all_time_out l -> moves ps l = Some l' ->
  ~ stuck l' /\ List.length ps <= work_left l /\ exists ps' l'', moves ps' l' = Some l'' /\ idle_all l''.
Proof.
  intros l ps l' S G E. destruct (run_keeps _ _ _ E (start_exclusive l S)) as (X & L & _ & G'). specialize (G' G). split; [|split].
  - intros [N I]. destruct (timeout_progress l' X G' I) as (q & M). apply M, N.
  - rewrite <- (start_left l S). lia.
  - apply (can_finish all_time_out) with (n := left l'); auto.
    + intros; now apply timeout_progress.
    + intros p l1 l2 H X1 M. destruct (step_keeps _ _ _ M X1) as (_ & _ & _ & Y). auto.
Qed.

(** Two processes with the stream that one inherited from the other: each locks the file, makes a call and unlocks it.  The second
    lock_file() waits with the mutex in hand, and the first process can neither go on nor unlock. *)
Definition whole (calls : nat) (timeout ctx guard : bool) : section := mkSec (Some (mkWant 1 false 0 None)) timeout calls ctx guard.
Lemma two_stuck l : move 0 l = None -> move 1 l = None -> List.length l = 2 -> ~ idle_all l -> stuck l.
Proof.
  intros H0 H1 L I. split; [|exact I]. intros [|[|p]]; auto. unfold move. replace (nth_error l (S (S p))) with (@None party); [reflexivity|].
  symmetry. apply nth_error_None. lia.
Qed.
Theorem C105_shared_mutex_refuted : forall ctx,
  let l := [mkParty 7 Before [whole 1 false ctx false]; mkParty 7 Before [whole 1 false ctx false]] in
  exists l', starting l /\ moves [0; 1] l = Some l' /\ stuck l'.
Proof.
  intros ctx. eexists. split; [repeat constructor|]. split; [reflexivity|]. apply two_stuck; try reflexivity. intros H. inversion H. discriminate.
Qed.
(** Even without any call in between. *)
Theorem C105_unlock_refuted :
  let l := [mkParty 7 Before [whole 0 false false false]; mkParty 7 Before [whole 0 false false false]] in
  exists l', starting l /\ moves [0; 1] l = Some l' /\ stuck l'.
Proof.
  eexists. split; [repeat constructor|]. split; [reflexivity|]. apply two_stuck; try reflexivity. intros H. inversion H. discriminate.
Qed.
(** lock_file() is inside its call, hence holds the mutex, for as long as another process (200) has locked a byte: one turn of it, in M_Waiting. *)
Example C105_waits : let '(f, w) := demo_open "f" true true false (demo [1; 2; 3]%Z [] [] [mkSeg 200 (1, 10)%Z false 0 None]) in
  exists q, fst (lock_begin f PNone w) = (TWait PhKernWait, q).
Proof. vm_compute. eexists. reflexivity. Qed.
(** Guarded users, two of which share a mutex, and one that does not: they all finish. *)
Example C105_example :
  let l := [mkParty 7 Before [whole 1 false false true; whole 0 false true true]; mkParty 7 Before [whole 1 false false true]; mkParty 8 Before [whole 2 false false false]] in
  shared_mutexes_guarded l /\ match moves [0; 0; 2; 0; 0; 2; 2; 2; 2; 1; 1; 1; 1; 0; 0; 0] l with Some l' => idle_all l' | None => False end.
Proof.
  split.
  - intros p q a b N Ea Eb M. destruct p as [|[|[|p]]]; cbn in Ea; [injection Ea as <-; repeat constructor..| |destruct p; discriminate].
    injection Ea as <-. destruct q as [|[|[|q]]]; cbn in Eb; [injection Eb as <-; discriminate..|congruence|destruct q; discriminate].
  - vm_compute. repeat constructor.
Qed.
Print Assumptions C105_no_deadlock_partial.
Print Assumptions C105_timeouts.
Print Assumptions C105_shared_mutex_refuted.
Print Assumptions C105_unlock_refuted.
