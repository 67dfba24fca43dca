(** C110: close() when a signal handler raises at one of its instructions. *)
From Coq Require Import ZArith Ascii String List Bool Lia.
From Verif Require Import M_Base M_Modes M_Registry M_Kernel M_World M_Raw M_IntWrite M_IntClose S_Locks S_LockFile S_IntClose S_Demo
  P_Raw P_Registry P_RegEff P_Kernel.
Import ListNotations.
Open Scope Z_scope.

(** * Calls in which the handler does not raise *)
Definition mono {A} (m : I A) : Prop := forall s r s', m s = (r, s') -> c_due s = None -> c_due s' = None.
Definition agree {A} (mi : I A) (m : M A) : Prop :=
  mono mi /\ forall s r s', mi s = (r, s') -> (c_due s' = None -> c_due s = None) -> m (c_world s) = (r, c_world s').

Lemma agree_ret {A} (a : A) : agree (ret a) (ret a).
Proof. split; intros s r s' [= <- <-]; auto. Qed.
Lemma agree_tick : agree tick (ret tt).
Proof.
  split; intros s r s'; unfold tick; destruct (c_due s) as [[|n]|] eqn:D; intros [= <- <-]; cbn; try congruence; auto.
  intros H. discriminate (H eq_refl).
Qed.
Lemma agree_world {A} (m : M A) : agree (in_world m) m.
Proof. split; intros s r s'; unfold in_world; destruct (m (c_world s)) as [r1 w1]; intros [= <- <-]; cbn; auto. Qed.
Lemma agree_mark : agree mark (ret tt).
Proof. split; intros s r s' [= <- <-]; cbn; auto. Qed.
Lemma agree_bind {A B} (mi : I A) m (ki : A -> I B) k : agree mi m -> (forall a, agree (ki a) (k a)) -> agree (bind mi ki) (bind m k).
Proof.
  intros [M1 A1] H. split.
  - intros s r s'. unfold bind. destruct (mi s) as [[a|e] s1] eqn:E; intros E2 D.
    + eapply (H a); [exact E2|]. eapply M1; eauto.
    + injection E2 as <- <-. eapply M1; eauto.
  - intros s r s'. unfold bind. destruct (mi s) as [[a|e] s1] eqn:E; intros E2 D.
    + rewrite (A1 _ _ _ E). { apply (H a); auto. intros N. destruct (H a) as [M2 _]. pose proof (M1 _ _ _ E (D N)) as X. exact X. }
      intros N. destruct (H a) as [M2 _]. apply D. eapply M2; eauto.
    + injection E2 as <- <-. rewrite (A1 _ _ _ E) by exact D. reflexivity.
Qed.
Lemma agree_finally {A} (mi : I A) m ci c : agree mi m -> agree ci c -> agree (finally mi ci) (finally m c).
Proof.
  intros [M1 A1] [M2 A2]. split; intros s r s'; unfold finally; destruct (mi s) as [r1 s1] eqn:E1; destruct (ci s1) as [r2 s2] eqn:E2; intros E D.
  - assert (s' = s2) as -> by (destruct r2; injection E as _ <-; reflexivity). eauto.
  - assert (s' = s2) as -> by (destruct r2; injection E as _ <-; reflexivity).
    rewrite (A1 _ _ _ E1) by eauto. rewrite (A2 _ _ _ E2) by eauto. destruct r2; injection E as <-; reflexivity.
Qed.
Lemma agree_eq {A} (mi : I A) m m' : agree mi m -> (forall w, m w = m' w) -> agree mi m'.
Proof. intros [M1 A1] H. split; [exact M1|]. intros s r s' E D. rewrite <- H. eauto. Qed.
Ltac ag := repeat first [apply agree_bind; [|intros ?] | apply agree_finally | apply agree_tick | apply agree_world | apply agree_mark | apply agree_ret].

Lemma agree_close_all : forall l, agree (close_all_i l) (close_all l).
Proof.
  induction l as [|d l IH]; cbn [close_all_i close_all]; [apply agree_ret|].
  eapply agree_eq; [ag; exact IH|]. intros w. unfold bind, ret. destruct (sys_close d w) as [[] w1]; reflexivity.
Qed.
Lemma agree_purge u : agree (purge_i u) (purge_pending u ;; ret tt).
Proof.
  apply (agree_eq _ (ret tt ;; has <- has_locks u ;; ret tt ;;
                     if has then ret tt else fds <- take_data u ;; ret tt ;; close_all fds)).
  - unfold purge_i. do 3 (apply agree_bind; [ag|intros ?]). match goal with |- context [if ?b then _ else _] => destruct b end; [ag|].
    ag. apply agree_close_all.
  - intros w. unfold bind, ret, has_locks, take_data, purge_pending.
    destruct (unique_id_has_locks (w_pid w) (w_reg w) u) as [[] r1]; [reflexivity|].
    change (w_pid (set_reg w r1)) with (w_pid w). change (w_reg (set_reg w r1)) with r1.
    destruct (remove_unique_id_data (w_pid w) r1 u) as [l r2].
    change (set_reg (set_reg w r1) r2) with (set_reg w r2). destruct (close_all l (set_reg w r2)) as [[[]|e] w1]; reflexivity.
Qed.
Lemma agree_unlock f n off : agree (unlock_i f n off) (inner_file_unlock f n off).
Proof.
  unfold unlock_i, inner_file_unlock. apply agree_finally; [|apply agree_purge].
  eapply agree_eq; [ag|]. intros w. unfold bind, ret. destruct (sys_unlock _ _ _ w) as [[[]|e] w1]; reflexivity.
Qed.
Lemma agree_unlock_each f : forall l, agree (unlock_each_i f l) (unlock_each f l).
Proof.
  induction l as [|lk l IH]; cbn [unlock_each_i unlock_each]; [ag|].
  eapply agree_eq; [apply agree_bind; [ag|intros ?]; apply agree_bind; [apply agree_unlock|intros ?]; exact IH|]. reflexivity.
Qed.
Lemma agree_streams f : agree (close_streams_i f) (inner_close_streams f).
Proof.
  unfold close_streams_i, inner_close_streams. destruct (f_closefd f); [|ag]. destruct (f_uid f) as [u|]; [|ag]. destruct (f_fd f) as [fd|]; [|ag].
  eapply agree_eq.
  { apply agree_bind; [ag|intros ?]. apply agree_bind; [ag|intros ?]. apply agree_bind; [ag|intros ?].
    apply agree_bind; [apply agree_purge|intros ?]. ag. }
  intros w. unfold bind, ret, add_data, drop_entry. destruct (add_unique_id_data (w_pid w) (w_reg w) u fd) as [[x|e] r]; [|reflexivity].
  destruct (purge_pending u (set_reg w r)) as [[b|e] w1]; reflexivity.
Qed.
Lemma raw_close_open f w : f_closed f = false -> raw_close f w =
  (bind (match f_uid f, f_fd f with
         | Some u, Some fd => l <- take_locks u fd ;; unlock_each f l
         | _, _ => ret tt
         end) (fun _ => inner_close_streams f)) w.
Proof. intros H. unfold raw_close. rewrite H. reflexivity. Qed.
Lemma agree_rest f : f_closed f = false -> agree (close_rest_i f) (raw_close f).
Proof.
  intros H. eapply agree_eq; [|intros w; symmetry; apply raw_close_open, H].
  unfold close_rest_i. apply agree_bind; [|intros ?; exact (agree_streams f)].
  destruct (f_uid f) as [u|]; [|ag]. destruct (f_fd f) as [fd|]; [|ag].
  eapply agree_eq; [apply agree_bind; [ag|intros ?]; apply agree_bind; [ag|intros l]; apply agree_bind; [ag|intros ?]; apply agree_unlock_each|].
  reflexivity.
Qed.
Lemma agree_close f s r s' : f_closed f = false -> c_marked s = false -> close_i f s = (r, s') -> (c_due s' = None -> c_due s = None) ->
  raw_close f (c_world s) = (r, c_world s').
Proof.
  intros H Hm. unfold close_i. rewrite Hm. 
  assert (G : agree (tick ;; finally mark_i (close_rest_i f)) (ret tt ;; finally (ret tt ;; finally (ret tt) (ret tt) ;; ret tt) (raw_close f))).
  { apply agree_bind; [ag|intros ?]. apply agree_finally; [unfold mark_i; ag|now apply agree_rest]. }
  intros E D. destruct G as [_ G]. specialize (G _ _ _ E D). rewrite <- G. unfold bind, ret, finally.
  destruct (raw_close f (c_world s)) as [[[]|e] w1]; reflexivity.
Qed.

(** * The mark *)
Definition keepm {A} (m : I A) : Prop := forall s r s', m s = (r, s') -> c_marked s' = c_marked s.
Lemma keepm_ret {A} (a : A) : keepm (ret a).
Proof. now intros s r s' [= <- <-]. Qed.
Lemma keepm_tick : keepm tick.
Proof. intros s r s'. unfold tick. destruct (c_due s) as [[|n]|]; now intros [= <- <-]. Qed.
Lemma keepm_world {A} (m : M A) : keepm (in_world m).
Proof. intros s r s'. unfold in_world. destruct (m (c_world s)). now intros [= <- <-]. Qed.
Lemma keepm_bind {A B} (m : I A) (k : A -> I B) : keepm m -> (forall a, keepm (k a)) -> keepm (bind m k).
Proof.
  intros H K s r s'. unfold bind. destruct (m s) as [[a|e] s1] eqn:E; intros E2.
  - rewrite (K a _ _ _ E2). eauto.
  - injection E2 as <- <-. eauto.
Qed.
Lemma keepm_finally {A} (m : I A) c : keepm m -> keepm c -> keepm (finally m c).
Proof.
  intros H K s r s'. unfold finally. destruct (m s) as [r1 s1] eqn:E1. destruct (c s1) as [r2 s2] eqn:E2. intros E.
  assert (s' = s2) as -> by (destruct r2; injection E as _ <-; reflexivity). rewrite (K _ _ _ E2). eauto.
Qed.
Ltac km := repeat first [apply keepm_bind; [|intros ?] | apply keepm_finally | apply keepm_tick | apply keepm_world | apply keepm_ret].
Lemma keepm_close_all : forall l, keepm (close_all_i l).
Proof. induction l; cbn [close_all_i]; km. assumption. Qed.
Lemma keepm_purge u : keepm (purge_i u).
Proof. unfold purge_i. km. match goal with |- context [if ?b then _ else _] => destruct b end; km. apply keepm_close_all. Qed.
Lemma keepm_unlock f n off : keepm (unlock_i f n off).
Proof. unfold unlock_i. apply keepm_finally; [km|apply keepm_purge]. Qed.
Lemma keepm_unlock_each f : forall l, keepm (unlock_each_i f l).
Proof.
  induction l; cbn [unlock_each_i]; [km|]. apply keepm_bind; [km|intros ?]. apply keepm_bind; [apply keepm_unlock|intros ?]. assumption.
Qed.
Lemma keepm_rest f : keepm (close_rest_i f).
Proof.
  unfold close_rest_i, close_streams_i. apply keepm_bind; [|intros ?].
  - destruct (f_uid f); [|km]. destruct (f_fd f); [|km]. do 3 (apply keepm_bind; [km|intros ?]). apply keepm_unlock_each.
  - destruct (f_closefd f); [|km]. destruct (f_uid f); [|km]. destruct (f_fd f); [|km].
    do 3 (apply keepm_bind; [km|intros ?]). apply keepm_bind; [apply keepm_purge|intros ?; km].
Qed.
Lemma rest_none f c w : f_closed f = false ->
  close_rest_i f (mkCst None c w) = (fst (raw_close f w), mkCst None c (snd (raw_close f w))).
Proof.
  intros H. destruct (close_rest_i f (mkCst None c w)) as [r s] eqn:E. destruct (agree_rest f H) as [M1 A1].
  pose proof (M1 _ _ _ E eq_refl) as D. pose proof (keepm_rest f _ _ _ E) as K. specialize (A1 _ _ _ E ltac:(auto)). cbn in A1, K.
  rewrite A1. cbn [fst snd]. destruct s as [d c' w']. cbn in *. congruence.
Qed.
Lemma mark_i_marks n c w r s : mark_i (mkCst (Some (S n)) c w) = (r, s) -> c_marked s = true /\ c_world s = w.
Proof.
  unfold mark_i, bind, finally, tick, mark. cbn. destruct n as [|n]; cbn; [intros [= <- <-]; auto|].
  destruct n as [|n]; cbn; intros [= <- <-]; auto.
Qed.

(** Unless the handler raises, the call is that of M_Raw (C14, C18, C27, C30, C60), and the stream is marked closed. *)
Theorem C110_uninterrupted f w due r s : f_closed f = false ->
  close_i f (mkCst due false w) = (r, s) -> (c_due s = None -> due = None) ->
  raw_close f w = (r, c_world s) /\ c_marked s = true.
Proof.
  intros H E D. split; [exact (agree_close f (mkCst due false w) r s H eq_refl E D)|].
  unfold close_i in E. cbn [c_marked] in E. unfold bind in E. destruct due as [[|n]|]; cbn -[finally mark_i] in E.
  - injection E as <- <-. discriminate (D eq_refl).
  - unfold finally in E. destruct (mark_i (mkCst (Some n) false w)) as [r1 s1] eqn:E1.
    destruct (close_rest_i f s1) as [r2 s2] eqn:E2. assert (s = s2) as -> by (destruct r2; injection E as _ <-; reflexivity).
    pose proof (keepm_rest f _ _ _ E2) as ->.
    destruct n as [|n]; [|eapply mark_i_marks; eauto]. exfalso. cbn in E1. injection E1 as <- <-.
    destruct (agree_rest f H) as [M1 _]. discriminate (D (M1 _ _ _ E2 eq_refl)).
  - unfold finally in E. change (mark_i (mkCst None false w)) with (@Ok unit tt, mkCst None true w) in E.
    cbv iota beta in E. destruct (close_rest_i f (mkCst None true w)) as [r2 s2] eqn:E2.
    assert (s = s2) as -> by (destruct r2; injection E as _ <-; reflexivity). pose proof (keepm_rest f _ _ _ E2) as ->. reflexivity.
Qed.
(** Interrupted at its first instruction, the call did nothing and can be repeated.  Interrupted at one of the next three, which are those
    of IOBase.close(), it does everything all the same before it raises; but the stream is marked only if its flush() had begun. *)
Theorem C110_first_instruction f w : close_i f (mkCst (Some O) false w) = (Err HANDLER, mkCst None false w).
Proof. reflexivity. Qed.
Theorem C110_marking f w n : f_closed f = false -> (1 <= n <= 3)%nat ->
  close_i f (mkCst (Some n) false w)
  = (match fst (raw_close f w) with Ok _ => Err HANDLER | Err e => Err e end, mkCst None (2 <=? n)%nat (snd (raw_close f w))).
Proof.
  intros H Hn. destruct n as [|[|[|[|n]]]]; try lia;
    unfold close_i; cbn [c_marked]; unfold bind at 1; cbn -[finally close_rest_i raw_close]; unfold finally at 1; cbn -[close_rest_i raw_close];
    rewrite rest_none by exact H; destruct (fst (raw_close f w)); reflexivity.
Qed.
(** From then on the stream is marked, and close() does nothing more however often it is called. *)
Theorem C110_again f w due ds r s : (forall n, due = Some n -> (2 <= n)%nat) ->
  close_i f (mkCst due false w) = (r, s) ->
  closes_i f (due :: ds) false w = (r :: map (fun _ => Ok tt) ds, (true, c_world s)).
Proof.
  intros Hd E. assert (Hm : c_marked s = true).
  { unfold close_i in E. cbn [c_marked] in E. unfold bind in E. destruct due as [[|[|n]]|]; try (specialize (Hd _ eq_refl); lia); cbn -[finally mark_i] in E.
    - unfold finally in E. destruct (mark_i (mkCst (Some (S n)) false w)) as [r1 s1] eqn:E1.
      destruct (close_rest_i f s1) as [r2 s2] eqn:E2. assert (s = s2) as -> by (destruct r2; injection E as _ <-; reflexivity).
      pose proof (keepm_rest f _ _ _ E2) as ->. eapply mark_i_marks; eauto.
    - unfold finally in E. change (mark_i (mkCst None false w)) with (@Ok unit tt, mkCst None true w) in E.
    cbv iota beta in E. destruct (close_rest_i f (mkCst None true w)) as [r2 s2] eqn:E2.
      assert (s = s2) as -> by (destruct r2; injection E as _ <-; reflexivity). pose proof (keepm_rest f _ _ _ E2) as ->. reflexivity. }
  cbn [closes_i map]. rewrite E, Hm. generalize (c_world s). clear. intros w.
  assert (X : closes_i f ds true w = (map (fun _ => Ok tt) ds, (true, w))).
  { induction ds as [|d ds IH]; [reflexivity|]. cbn [closes_i map]. unfold close_i at 1. cbn [c_marked c_world]. now rewrite IH. }
  now rewrite X.
Qed.

(** * What the call touches, wherever it is interrupted *)
Section Inv.
Variable P : world -> Prop.
Definition inv {A} (m : I A) (Q : A -> Prop) : Prop :=
  forall s r s', m s = (r, s') -> P (c_world s) -> P (c_world s') /\ forall a, r = Ok a -> Q a.
Definition any {A} (_ : A) : Prop := True.
Lemma inv_ret {A} (a : A) : inv (ret a) any.
Proof. intros s r s' [= <- <-] H. unfold any. auto. Qed.
Lemma inv_tick : inv tick any.
Proof. intros s r s'. unfold tick, any. destruct (c_due s) as [[|n]|]; intros [= <- <-]; auto. Qed.
Lemma inv_bind {A B} (m : I A) (k : A -> I B) (Q : A -> Prop) (Q' : B -> Prop) : inv m Q -> (forall a, Q a -> inv (k a) Q') -> inv (bind m k) Q'.
Proof.
  intros H K s r s'. unfold bind. destruct (m s) as [[a|e] s1] eqn:E; intros E2 X; destruct (H _ _ _ E X) as [X1 X2].
  - exact (K a (X2 a eq_refl) _ _ _ E2 X1).
  - injection E2 as <- <-. split; [exact X1|discriminate].
Qed.
Lemma inv_finally {A} (m : I A) c : inv m any -> inv c any -> inv (finally m c) any.
Proof.
  intros H K s r s'. unfold finally. destruct (m s) as [r1 s1] eqn:E1. destruct (c s1) as [r2 s2] eqn:E2. intros E X.
  assert (s' = s2) as -> by (destruct r2; injection E as _ <-; reflexivity).
  split; [|unfold any; auto]. eapply (K _ _ _ E2). eapply (H _ _ _ E1). exact X.
Qed.
Lemma inv_world {A} (m : M A) (Q : A -> Prop) : (forall w r w', m w = (r, w') -> P w -> P w' /\ forall a, r = Ok a -> Q a) -> inv (in_world m) Q.
Proof. intros H s r s'. unfold in_world. destruct (m (c_world s)) as [r1 w1] eqn:E. intros [= <- <-] X. exact (H _ _ _ E X). Qed.
Lemma inv_mark : inv mark any.
Proof. intros s r s' [= <- <-]. unfold any. auto. Qed.

Variables (f : rawio) (u : uid) (fd : Z).
Hypothesis Hfd : f_fd f = Some fd.
Hypothesis Huid : f_uid f = Some u.
Variable QL : list lockrec -> Prop.
Hypothesis QL_tail : forall lk l, QL (lk :: l) -> QL l.
Hypothesis Ptake : forall w r w', take_locks u fd w = (r, w') -> P w -> P w' /\ forall a, r = Ok a -> QL a.
Hypothesis Punlock : forall lk l w r w', QL (lk :: l) ->
  sys_unlock fd (lk_start lk) (klen (match lk_end lk with None => None | Some e => Some (e - lk_start lk) end)) w = (r, w') -> P w -> P w'.
Hypothesis Ppurge : inv (purge_i u) any.
Hypothesis Padd : forall w r w', add_data u fd w = (r, w') -> P w -> P w'.
Hypothesis Pdrop : forall w r w', drop_entry u w = (r, w') -> P w -> P w'.
Lemma inv_unlock_each : forall l, QL l -> inv (unlock_each_i f l) any.
Proof.
  induction l as [|lk l IH]; cbn [unlock_each_i]; intros Hl; [apply inv_ret|].
  eapply inv_bind; [apply inv_tick|intros ? _]. eapply inv_bind; [|intros ? _; apply IH; eapply QL_tail; eauto].
  unfold unlock_i. replace (uid_of f) with u by (unfold uid_of; now rewrite Huid). replace (fd_of f) with fd by (unfold fd_of; now rewrite Hfd).
  apply inv_finally; [|exact Ppurge]. eapply inv_bind; [apply inv_tick|intros ? _].
  eapply inv_bind; [|intros ? _; apply inv_tick]. apply (inv_world _ any). intros w r w' E X. unfold any. split; [|auto]. eapply Punlock; eauto.
Qed.
Lemma inv_rest : inv (close_rest_i f) any.
Proof.
  unfold close_rest_i, close_streams_i. rewrite Hfd, Huid. apply (inv_bind _ _ any); [|intros ? _].
  - eapply inv_bind; [apply inv_tick|intros ? _]. eapply inv_bind; [apply (inv_world _ QL), Ptake|intros l Hl].
    eapply inv_bind; [apply inv_tick|intros ? _]. now apply inv_unlock_each.
  - destruct (f_closefd f); [|apply inv_ret]. eapply inv_bind; [apply inv_tick|intros ? _].
    apply (inv_bind _ _ any); [apply inv_world; unfold any; eauto|intros ? _]. eapply inv_bind; [apply inv_tick|intros ? _].
    eapply inv_bind; [apply Ppurge|intros ? _]. eapply inv_bind; [apply inv_tick|intros ? _]. apply inv_world; unfold any; eauto.
Qed.
Lemma inv_close c due w r s : close_i f (mkCst due c w) = (r, s) -> P w -> P (c_world s).
Proof.
  intros E X. revert E. unfold close_i. cbn [c_marked]. destruct c; [intros [= <- <-]; exact X|]. intros E.
  assert (G : inv (tick ;; finally mark_i (close_rest_i f)) any).
  { eapply inv_bind; [apply inv_tick|intros ? _]. apply inv_finally; [|apply inv_rest].
    unfold mark_i. eapply inv_bind; [apply inv_tick|intros ? _]. eapply inv_bind; [apply inv_finally; [apply inv_tick|apply inv_mark]|intros ? _; apply inv_tick]. }
  exact (proj1 (G _ _ _ E X)).
Qed.
End Inv.

(** The registry calls, in terms of what is recorded for each file. *)
Definition Vsame (w w' : world) (u : uid) : Prop :=
  w_fds w' = w_fds w /\ w_inodes w' = w_inodes w /\ w_names w' = w_names w /\ w_pid w' = w_pid w /\ w_kern w' = w_kern w
  /\ forall v, v <> u -> table w' v = table w v /\ pending w' v = pending w v /\ waiters w' v = waiters w v.
Lemma take_locks_views u fd w r w' : take_locks u fd w = (r, w') -> Vsame w w' u /\ r = Ok (mine w u fd)
  /\ table w' u = of_others w u fd /\ pending w' u = pending w u.
Proof.
  unfold take_locks. destruct (remove_file_locks (w_pid w) (w_reg w) u fd) as [l r'] eqn:E. apply remove_eff in E as (Hp & D & W & L & R & Lu).
  intros [= <- <-]. split; [|split; [|split]].
  - repeat split; [exact (L v H)|exact (D v)|exact (W v)].
  - rewrite R. reflexivity.
  - exact Lu.
  - exact (D u).
Qed.
Lemma add_views u fd w r w' : add_data u fd w = (r, w') -> Vsame w w' u /\ table w' u = table w u
  /\ (pending w' u = pending w u \/ pending w' u = pending w u ++ [fd]).
Proof.
  unfold add_data. destruct (Z.eq_dec fd 0) as [->|N].
  - cbn. intros [= <- <-]. repeat split; auto.
  - destruct (adddata_eff (w_pid w) (w_reg w) u fd N) as (r' & -> & L & W & D & Du). intros [= <- <-]. split; [|split].
    + repeat split; [exact (L v)|exact (D v H)|exact (W v)].
    + exact (L u).
    + right. exact Du.
Qed.
Lemma drop_views u w r w' : drop_entry u w = (r, w') -> Vsame w w' u /\ table w' u = table w u /\ pending w' u = pending w u.
Proof.
  unfold drop_entry. destruct (try_deleting_unique_id_entry (w_pid w) (w_reg w) u) as [b r'] eqn:E. apply trydel_eff in E. intros [= <- <-].
  split; [|split; apply (E u)]. repeat split; apply (E v).
Qed.
Lemma has_views u w r w' : has_locks u w = (r, w') -> Vsame w w' u /\ table w' u = table w u /\ pending w' u = pending w u
  /\ exists b, r = Ok b /\ (b = false <-> table w u = []).
Proof.
  unfold has_locks. destruct (unique_id_has_locks (w_pid w) (w_reg w) u) as [b r'] eqn:E. apply haslocks_eff in E as [E B]. intros [= <- <-].
  split; [|split; [apply (E u)|split; [apply (E u)|exists b; split; [reflexivity|exact B]]]]. repeat split; apply (E v).
Qed.
Lemma data_views u w r w' : take_data u w = (r, w') -> Vsame w w' u /\ table w' u = table w u /\ pending w' u = [] /\ r = Ok (pending w u).
Proof.
  unfold take_data. destruct (remove_unique_id_data (w_pid w) (w_reg w) u) as [l r'] eqn:E. apply takedata_eff in E as (L & W & D & Du & R).
  intros [= <- <-]. split; [|split; [exact (L u)|split; [exact Du|rewrite R; reflexivity]]].
  repeat split; [exact (L v)|exact (D v H)|exact (W v)].
Qed.
Lemma unlock_views fd off n w r w' : sys_unlock fd off n w = (r, w') ->
  w_fds w' = w_fds w /\ w_inodes w' = w_inodes w /\ w_names w' = w_names w /\ w_pid w' = w_pid w /\ w_reg w' = w_reg w
  /\ (w_kern w' = w_kern w \/ exists o, w_fds w fd = Some o /\ w_kern w' = kunlock (w_kern w) (w_pid w) (o_uid o) off (kend off n)).
Proof.
  unfold sys_unlock, bind, get_fd. destruct (w_fds w fd) as [o|] eqn:Eo; [|intros [= <- <-]; repeat split; auto].
  destruct (w_inodes w (o_uid o)) as [i|]; [|intros [= <- <-]; repeat split; auto].
  rewrite next_io_eq. destruct (hd IoFull (w_io w)); try (intros [= <- <-]; repeat split; auto; fail);
    (destruct (off <? 0); intros [= <- <-]; repeat split; auto; right; exists o; auto).
Qed.
Lemma views_eq w w' v : w_pid w' = w_pid w -> w_reg w' = w_reg w -> table w' v = table w v /\ pending w' v = pending w v /\ waiters w' v = waiters w v.
Proof. intros E1 E2. unfold table, pending, waiters, registry_of. rewrite E1, E2. auto. Qed.

(** The descriptors that the call may close. *)
Section Own.
Variables (f : rawio) (u : uid) (fd : Z) (w0 : world).
Hypothesis Hfd : f_fd f = Some fd.
Hypothesis Huid : f_uid f = Some u.
Definition Own (w : world) : Prop :=
  w_inodes w = w_inodes w0 /\ w_names w = w_names w0 /\ w_pid w = w_pid w0
  /\ incl (pending w u) (fd :: pending w0 u)
  /\ (forall d, d <> fd -> ~ In d (pending w0 u) -> w_fds w d = w_fds w0 d)
  /\ forall v, v <> u -> table w v = table w0 v /\ pending w v = pending w0 v /\ waiters w v = waiters w0 v.
Lemma own_V w w' : Vsame w w' u -> incl (pending w' u) (fd :: pending w0 u) -> Own w -> Own w'.
Proof.
  intros (V1 & V2 & V3 & V4 & _ & V5) Hi (O1 & O2 & O3 & O4 & O5 & O6).
  split; [congruence|]. split; [congruence|]. split; [congruence|]. split; [exact Hi|]. split; [rewrite V1; exact O5|].
  intros v Hv. destruct (V5 v Hv) as (-> & -> & ->). now apply O6.
Qed.
Lemma own_close d w r w' : sys_close d w = (r, w') -> In d (fd :: pending w0 u) -> Own w -> Own w'.
Proof.
  unfold sys_close. destruct (w_fds w d) as [o|] eqn:Ed; intros [= <- <-]; [|auto]. intros Hd (O1 & O2 & O3 & O4 & O5 & O6).
  set (w1 := set_kern _ _). assert (X : w_inodes w1 = w_inodes w /\ w_names w1 = w_names w /\ w_pid w1 = w_pid w /\ w_reg w1 = w_reg w
    /\ w_fds w1 = upd Z.eqb (w_fds w) d None) by (repeat split).
  clearbody w1. destruct X as (X1 & X2 & X3 & X4 & X5).
  split; [congruence|]. split; [congruence|]. split; [congruence|].
  split; [destruct (views_eq w w1 u X3 X4) as (_ & -> & _); exact O4|]. split.
  - intros e H1 H2. rewrite X5. unfold upd. destruct (d =? e) eqn:Eq; [|now apply O5].
    apply Z.eqb_eq in Eq. subst e. destruct Hd as [<-|Hd]; [congruence|contradiction].
  - intros v Hv. destruct (views_eq w w1 v X3 X4) as (-> & -> & ->). now apply O6.
Qed.
Lemma own_close_all : forall l, incl l (fd :: pending w0 u) -> inv Own (close_all_i l) any.
Proof.
  induction l as [|d l IH]; intros Hl; cbn [close_all_i]; [apply inv_ret|].
  eapply inv_bind; [apply inv_tick|intros ? _]. apply (inv_bind _ _ _ any).
  { apply inv_world. intros w r w' E X. unfold any. split; [|auto]. eapply own_close; eauto. apply Hl. now left. }
  intros ? _. eapply inv_bind; [apply inv_tick|intros ? _]. apply IH. intros x Hx. apply Hl. now right.
Qed.
Lemma own_purge : inv Own (purge_i u) any.
Proof.
  unfold purge_i. eapply inv_bind; [apply inv_tick|intros ? _]. apply (inv_bind _ _ _ any).
  { apply inv_world. intros w r w' E X. apply has_views in E as (V & _ & Ep & _). unfold any. split; [|auto].
    eapply own_V; eauto. rewrite Ep. apply X. }
  intros has _. eapply inv_bind; [apply inv_tick|intros ? _]. destruct has; [apply inv_ret|].
  apply (inv_bind _ _ _ (fun l => incl l (fd :: pending w0 u))).
  { apply inv_world. intros w r w' E X. apply data_views in E as (V & _ & Ep & ->). split.
    - eapply own_V; eauto. rewrite Ep. intros x [].
    - intros l [= <-]. apply X. }
  intros l Hl. eapply inv_bind; [apply inv_tick|intros ? _]. now apply own_close_all.
Qed.
Lemma own_call c due r s : close_i f (mkCst due c w0) = (r, s) -> Own (c_world s).
Proof.
  intros E. eapply (inv_close Own f u fd Hfd Huid (fun _ => True)); eauto.
  - intros w r1 w' E1 X. apply take_locks_views in E1 as (V & _ & _ & Ep). split; [|auto]. eapply own_V; eauto. rewrite Ep. apply X.
  - intros lk l w r1 w' _ E1 X. apply unlock_views in E1 as (V1 & V2 & V3 & V4 & V5 & _). destruct X as (O1 & O2 & O3 & O4 & O5 & O6).
    split; [congruence|]. split; [congruence|]. split; [congruence|].
    split; [destruct (views_eq w w' u V4 V5) as (_ & -> & _); exact O4|]. split; [rewrite V1; exact O5|].
    intros v Hv. destruct (views_eq w w' v V4 V5) as (-> & -> & ->). now apply O6.
  - apply own_purge.
  - intros w r1 w' E1 X. apply add_views in E1 as (V & _ & Ep). eapply own_V; eauto. destruct X as (_ & _ & _ & X & _).
    destruct Ep as [-> | ->]; [exact X|]. intros x Hx. apply in_app_or in Hx. destruct Hx as [Hx|[<-|[]]]; [now apply X|now left].
  - intros w r1 w' E1 X. apply drop_views in E1 as (V & _ & Ep). eapply own_V; eauto. rewrite Ep. apply X.
  - repeat split; auto. intros x Hx. now right.
Qed.
End Own.

(** Wherever it is interrupted, the call closes no descriptor but its own and those that waited for it, and touches no file, no name and
    nothing that the registry says about other files. *)
Theorem C110_only_its_own f w u fd due r s : f_fd f = Some fd -> f_uid f = Some u ->
  close_i f (mkCst due false w) = (r, s) ->
  (forall d, d <> fd -> ~ In d (pending w u) -> w_fds (c_world s) d = w_fds w d)
  /\ w_inodes (c_world s) = w_inodes w /\ w_names (c_world s) = w_names w
  /\ incl (pending (c_world s) u) (fd :: pending w u)
  /\ forall v, v <> u -> table (c_world s) v = table w v /\ pending (c_world s) v = pending w v /\ waiters (c_world s) v = waiters w v.
Proof.
  intros H1 H2 E. destruct (own_call f u fd w H1 H2 false due r s E) as (O1 & O2 & O3 & O4 & O5 & O6). auto 10.
Qed.

(** The locks of others. *)
Section Others.
Variables (f : rawio) (u : uid) (fd : Z) (w0 : world).
Hypothesis Hs : streaming f w0 u fd.
Hypothesis Hmade : well_made (mine w0 u fd).
Hypothesis Hothers : of_others w0 u fd <> [].
Definition Oth (w : world) : Prop :=
  w_fds w = w_fds w0 /\ w_pid w = w_pid w0 /\ incl (table w u) (table w0 u) /\ incl (of_others w0 u fd) (table w u)
  /\ incl (of_others w0 u fd) (of_others w u fd)
  /\ forall p v sh b, someone_holds w0 p v sh b -> ~ (p = w_pid w0 /\ v = u /\ covered (mine w0 u fd) b) -> someone_holds w p v sh b.
Lemma oth_V w w' : Vsame w w' u -> table w' u = table w u -> Oth w -> Oth w'.
Proof.
  intros (V1 & _ & _ & V4 & Vk & _) Ht (O1 & O2 & O3 & O4 & O5 & O6). unfold Oth, of_others, someone_holds in *.
  rewrite V1, V4, Vk, Ht. auto 10.
Qed.
Lemma oth_purge : inv Oth (purge_i u) any.
Proof.
  unfold purge_i. eapply inv_bind; [apply inv_tick|intros ? _]. apply (inv_bind _ _ _ (fun b => b = true)).
  { apply inv_world. intros w r w' E X. apply has_views in E as (V & Et & _ & b & -> & Hb). split; [eapply oth_V; eauto|].
    intros b' [= <-]. destruct b; [reflexivity|]. exfalso. apply Hothers. destruct X as (_ & _ & _ & X & _).
    rewrite (proj1 Hb eq_refl) in X. now apply incl_l_nil in X. }
  intros has ->. eapply inv_bind; [apply inv_tick|intros ? _]. apply inv_ret.
Qed.
Lemma oth_call c due r s : close_i f (mkCst due c w0) = (r, s) -> Oth (c_world s).
Proof.
  destruct Hs as [_ Hfd Huid (o & Eo & Ho)]. intros E.
  eapply (inv_close Oth f u fd Hfd Huid (fun l => incl l (mine w0 u fd))); eauto.
  - intros lk l H x Hx. apply H. now right.
  - intros w r1 w' E1 X. apply take_locks_views in E1 as ((V1 & _ & _ & V4 & Vk & _) & -> & Et & _).
    destruct X as (O1 & O2 & O3 & O4 & O5 & O6). split.
    + unfold Oth, of_others, someone_holds in *. rewrite V1, V4, Vk, Et. split; [exact O1|]. split; [exact O2|]. split.
      { intros x Hx. apply filter_In in Hx as [Hx _]. now apply O3. }
      split; [exact O5|]. split; [|exact O6].
      intros x Hx. apply filter_In. split; [now apply O5|]. now apply filter_In in Hx.
    + intros l [= <-] x Hx. unfold mine in *. apply filter_In in Hx. apply filter_In. split; [apply O3|]; tauto.
  - intros lk l w r1 w' Hl E1 X. apply unlock_views in E1 as (V1 & _ & _ & V4 & V5 & Vk). destruct X as (O1 & O2 & O3 & O4 & O5 & O6).
    destruct (views_eq w w' u V4 V5) as (Et & _ & _). unfold Oth, of_others in *. rewrite V1, V4, Et.
    repeat (split; [assumption|]). intros p v sh b H0 Hn. specialize (O6 p v sh b H0 Hn).
    destruct Vk as [Vk|(o' & Eo' & Vk)]; unfold someone_holds in *; rewrite Vk; [exact O6|].
    apply kunlock_holds. split; [exact O6|]. intros (-> & -> & Hr). apply Hn.
    rewrite O1, Eo in Eo'. injection Eo' as <-. split; [exact O2|]. split; [exact Ho|].
    exists lk. split; [apply Hl; now left|]. destruct (Hmade lk) as [M1 M2]; [apply Hl; now left|].
    revert Hr. unfold in_range, kend, klen. destruct (lk_end lk) as [e|]; [|tauto].
    destruct (Z.eqb_spec (e - lk_start lk) 0); [lia|]. intros []. split; [assumption|]. lia.
  - apply oth_purge.
  - intros w r1 w' E1 X. apply add_views in E1 as (V & Et & _). eapply oth_V; eauto.
  - intros w r1 w' E1 X. apply drop_views in E1 as (V & Et & _). eapply oth_V; eauto.
  - unfold Oth. repeat split; auto using incl_refl. unfold of_others. intros x Hx. now apply filter_In in Hx.
Qed.
End Others.
(** As long as other streams of the process have locks on the file, no descriptor at all is closed, which would drop their locks; their
    records stay, and nobody loses a lock but the process on the bytes that the stream itself had locked. *)
Theorem C110_locks_of_others f w u fd due r s : streaming f w u fd -> well_made (mine w u fd) -> of_others w u fd <> [] ->
  close_i f (mkCst due false w) = (r, s) ->
  w_fds (c_world s) = w_fds w
  /\ incl (of_others w u fd) (table (c_world s) u)
  /\ forall p v sh b, someone_holds w p v sh b -> ~ (p = w_pid w /\ v = u /\ covered (mine w u fd) b) -> someone_holds (c_world s) p v sh b.
Proof.
  intros H1 H2 H3 E. destruct (oth_call f u fd w H1 H2 H3 false due r s E) as (O1 & O2 & O3 & O4 & O5 & O6). auto.
Qed.

(** * The number of the descriptor may be given to another file meanwhile *)
(** Unless the handler raised between close() and IOBase.close(), the next close() leaves a file opened meanwhile alone. *)
Theorem C110_other_file_partial f w u fd due due' r s d o r' s' : streaming f w u fd ->
  (forall e, In e (pending w u) -> w_fds w e <> None) -> due <> Some 1%nat ->
  close_i f (mkCst due false w) = (r, s) -> w_fds (c_world s) d = None ->
  close_i f (mkCst due' (c_marked s) (upd_fd (c_world s) d (Some o))) = (r', s') -> w_fds (c_world s') d = Some o.
Proof.
  intros [S1 S2 S3 (o0 & S4 & _)] Hp Hd E N E'.
  assert (U : w_fds (upd_fd (c_world s) d (Some o)) d = Some o) by (cbn; unfold upd; now rewrite Z.eqb_refl).
  assert (C : due = Some O \/ forall n, due = Some n -> (2 <= n)%nat).
  { destruct due as [[|[|n]]|]; auto; [congruence| |]; right; intros m; [intros [= <-]; lia|discriminate]. }
  destruct C as [->|C].
  - cbn in E. injection E as <- <-. cbn [c_marked c_world] in *.
    destruct (C110_only_its_own f _ u fd due' r' s' S2 S3 E') as (G & _). rewrite G; [exact U|congruence|].
    intros H. now apply (Hp d).
  - pose proof (C110_again f w due [] r s C E) as A. cbn [closes_i] in A. rewrite E in A. injection A as A. rewrite A in E'.
    unfold close_i in E'. cbn [c_marked] in E'. injection E' as <- <-. exact U.
Qed.

(** * Where the descriptor of a stream without locks is left *)
Ltac steps E := cbv beta iota zeta delta [bind tick in_world ret finally mark mark_i close_all_i unlock_each_i c_due c_marked c_world] in E.
Theorem C110_where f w u fd n r s : streaming f w u fd -> f_closefd f = true -> fd <> 0 -> table w u = [] -> pending w u = [] ->
  close_i f (mkCst (Some n) false w) = (r, s) ->
  (w_fds (c_world s) fd = None <-> (1 <= n <= 3)%nat \/ (12 <= n)%nat)
  /\ (In fd (pending (c_world s) u) <-> (7 <= n <= 9)%nat)
  /\ (r = Ok tt <-> (14 <= n)%nat).
Proof.
  intros [S1 S2 S3 (o & S4 & _)] Hc H0 Ht Hp.
  destruct (take_locks u fd w) as [rt w1] eqn:ET. pose proof (take_locks_views _ _ _ _ _ ET) as ((V1 & _) & Rt & Tt & Pt).
  assert (mine w u fd = []) as Em by (unfold mine; now rewrite Ht). rewrite Em in Rt. subst rt.
  assert (table w1 u = []) as T1 by (rewrite Tt; unfold of_others; now rewrite Ht). rewrite Hp in Pt.
  destruct (add_data u fd w1) as [ra w2] eqn:EA. pose proof (add_views _ _ _ _ _ EA) as ((V2 & _) & Ta & _).
  assert (ra = Ok tt /\ pending w2 u = [fd]) as [-> P2].
  { unfold add_data in EA. destruct (adddata_eff (w_pid w1) (w_reg w1) u fd H0) as (r' & X & _ & _ & _ & D). rewrite X in EA. injection EA as <- <-.
    split; [reflexivity|]. change (ED (w_pid w1) r' u = [fd]). rewrite D. change (pending w1 u ++ [fd] = [fd]). now rewrite Pt. }
  destruct (has_locks u w2) as [rh w3] eqn:EH. pose proof (has_views _ _ _ _ EH) as ((V3 & _) & Th & Ph & b & -> & Hb).
  assert (b = false) as -> by (apply Hb; congruence).
  destruct (take_data u w3) as [rd w4] eqn:ED. pose proof (data_views _ _ _ _ ED) as ((V4 & _) & Td & Pd & ->). rewrite Ph, P2 in ED.
  assert (F4 : w_fds w4 fd = Some o) by congruence.
  destruct (sys_close fd w4) as [rc w5] eqn:EC.
  assert (rc = Ok tt /\ w_fds w5 fd = None /\ pending w5 u = []) as (-> & F5 & P5).
  { unfold sys_close in EC. rewrite F4 in EC. injection EC as <- <-. split; [reflexivity|]. split; [cbn; unfold upd; now rewrite Z.eqb_refl|exact Pd]. }
  destruct (drop_entry u w5) as [rr w6] eqn:ER. pose proof (drop_views _ _ _ _ ER) as ((V6 & _) & _ & P6).
  assert (rr = Ok tt) as -> by (unfold drop_entry in ER; destruct (try_deleting_unique_id_entry _ _ _); now injection ER as <- _).
  intros E. unfold close_i, close_rest_i, close_streams_i, purge_i in E. rewrite S2, S3, Hc in E. cbn [c_marked] in E.
  assert (F1 : w_fds w1 fd = Some o) by congruence. assert (F2 : w_fds w2 fd = Some o) by congruence. assert (F3 : w_fds w3 fd = Some o) by congruence.
  assert (F6 : w_fds w6 fd = None) by congruence. assert (P3 : pending w3 u = [fd]) by congruence. assert (P6' : pending w6 u = []) by congruence.
  do 14 (destruct n as [|n];
    [repeat (steps E;
             first [rewrite ET in E|rewrite EA in E|rewrite EH in E|rewrite ED in E|rewrite EC in E|rewrite ER in E]);
     steps E; injection E as <- <-;
     cbn [c_world]; rewrite ?F1, ?F2, ?F3, ?F4, ?F5, ?F6, ?S4, ?Hp, ?Pt, ?P2, ?P3, ?Pd, ?P5, ?P6';
     (split; [split; [try discriminate; intros _; lia|first [reflexivity|intros; lia]]|]);
     (split; [split; [first [intros []; fail|intros []; try contradiction; lia]|first [intros _; now left|intros; lia]]
             |split; [discriminate|intros; lia]])|]).
  repeat (steps E;
             first [rewrite ET in E|rewrite EA in E|rewrite EH in E|rewrite ED in E|rewrite EC in E|rewrite ER in E]).
  steps E. injection E as <- <-. cbn [c_world]. rewrite F6, P6'.
  split; [split; [intros _; right; lia|reflexivity]|]. split; [split; [intros []|lia]|split; [intros _; lia|reflexivity]].
Qed.

(** * What is lost *)
(** A stream without locks; one that has locked the whole file; one closed while another has locked the file, which the latter has. *)
Definition plain : rawio * world := demo_open "f" true true false (demo [1; 2; 3] [] [] []).
Definition locked : rawio * world :=
  let '(f, w) := plain in let '(_, w) := raw_lock_file f PNone PNone PNone 0 SNone w in (f, w).
Definition two : rawio * rawio * world :=
  let '(f, w) := plain in let '(g, w) := demo_open "f" true true false w in
  let '(_, w) := raw_lock_file g PNone PNone PNone 0 SNone w in (f, g, w).
Definition second : rawio * world := let '(f, g, w) := two in (g, snd (raw_close f w)).
Definition opens (w : world) (fd : Z) : option uid := match w_fds w fd with Some o => Some (o_uid o) | None => None end.
(** Of each interrupted call: what it raises, the mark, whether the descriptor is open, whether it waits to be closed. *)
Example C110_where_example : let '(f, w) := plain in
  (map (fun n => let '(r, s) := close_i f (mkCst (Some n) false w) in
                 (r, c_marked s, opens (c_world s) 3, pending (c_world s) (1, 10))) (seq 0 15)
  = [(Err HANDLER, false, Some (1, 10), []); (Err HANDLER, false, None, []); (Err HANDLER, true, None, []); (Err HANDLER, true, None, []);
     (Err HANDLER, true, Some (1, 10), []); (Err HANDLER, true, Some (1, 10), []); (Err HANDLER, true, Some (1, 10), []);
     (Err HANDLER, true, Some (1, 10), [3]); (Err HANDLER, true, Some (1, 10), [3]); (Err HANDLER, true, Some (1, 10), [3]);
     (Err HANDLER, true, Some (1, 10), []); (Err HANDLER, true, Some (1, 10), []); (Err HANDLER, true, None, []); (Err HANDLER, true, None, []);
     (Ok tt, true, None, [])]) /\ streaming f w (1, 10) 3 /\ f_closefd f = true /\ table w (1, 10) = [] /\ pending w (1, 10) = [].
Proof. vm_compute. split; [reflexivity|]. repeat split; try reflexivity. eexists. split; reflexivity. Qed.

(** False: that calling close() again, without interruption, closes the descriptor or leaves it to others to close. *)
Theorem C110_closed_refuted :
  ~ (forall f w u fd due r w', streaming f w u fd -> f_closefd f = true -> fd <> 0 ->
       closes_i f [due; None] false w = (r, (true, w')) -> ~ abandoned w' u fd).
Proof.
  intros H. destruct plain as [f w] eqn:Ed.
  specialize (H f w (1, 10) 3 (Some 4%nat) [Err HANDLER; Ok tt] (snd (snd (closes_i f [Some 4%nat; None] false w)))).
  vm_compute in Ed. injection Ed as <- <-. revert H. vm_compute. intros H.
  refine (H _ eq_refl ltac:(discriminate) eq_refl _); [|split; [discriminate|intros []]].
  repeat split; try reflexivity. eexists. split; reflexivity.
Qed.
(** False: that it releases the locks of the stream.  The registry has forgotten them, other processes find them. *)
Theorem C110_released_refuted :
  ~ (forall f w u fd due r w', streaming f w u fd -> f_closefd f = true -> fd <> 0 -> of_others w u fd = [] ->
       closes_i f [due; None] false w = (r, (true, w')) -> table w' u = [] -> forall sh b, ~ process_holds w' u sh b).
Proof.
  intros H. destruct locked as [f w] eqn:Ed.
  specialize (H f w (1, 10) 3 (Some 5%nat) [Err HANDLER; Ok tt] (snd (snd (closes_i f [Some 5%nat; None] false w)))).
  vm_compute in Ed. injection Ed as <- <-. revert H. vm_compute. intros H.
  refine (H _ eq_refl ltac:(discriminate) eq_refl eq_refl eq_refl false 0 _).
  - repeat split; try reflexivity. eexists. split; reflexivity.
  - eexists. split; [left; reflexivity|]. repeat split; try reflexivity. discriminate.
Qed.
(** False: that the descriptors of streams closed before, which wait for the locks of this one, are closed or still wait. *)
Theorem C110_waiting_refuted :
  ~ (forall f w u fd due r w' d, streaming f w u fd -> f_closefd f = true -> fd <> 0 -> In d (pending w u) ->
       closes_i f [due; None] false w = (r, (true, w')) -> ~ abandoned w' u d).
Proof.
  intros H. destruct second as [f w] eqn:Ed.
  specialize (H f w (1, 10) 4 (Some 11%nat) [Err HANDLER; Ok tt] (snd (snd (closes_i f [Some 11%nat; None] false w))) 3).
  vm_compute in Ed. injection Ed as <- <-. revert H. vm_compute. intros H.
  refine (H _ eq_refl ltac:(discriminate) (or_introl eq_refl) eq_refl _); [|split; [discriminate|intros []]].
  repeat split; try reflexivity. eexists. split; reflexivity.
Qed.
(** False: that the next close() leaves a file opened meanwhile alone. *)
Theorem C110_other_file_refuted :
  ~ (forall f w u fd due r s d o r' s', streaming f w u fd -> fd <> 0 -> pending w u = [] ->
       close_i f (mkCst due false w) = (r, s) -> w_fds (c_world s) d = None -> o_uid o <> u ->
       close_i f (mkCst None (c_marked s) (upd_fd (c_world s) d (Some o))) = (r', s') -> w_fds (c_world s') d = Some o).
Proof.
  intros H. destruct plain as [f w] eqn:Ed. pose (o := mkOfd (1, 30) 0 true true false false false).
  pose (s := snd (close_i f (mkCst (Some 1%nat) false w))).
  specialize (H f w (1, 10) 3 (Some 1%nat) (Err HANDLER) s 3 o (Ok tt)
                (snd (close_i f (mkCst None (c_marked s) (upd_fd (c_world s) 3 (Some o)))))).
  unfold s, o in H. clear s o.
  vm_compute in Ed. injection Ed as <- <-. revert H. vm_compute. intros H.
  refine (_ (H _ ltac:(discriminate) eq_refl eq_refl eq_refl ltac:(discriminate) eq_refl)); [discriminate|].
  repeat split; try reflexivity. eexists. split; reflexivity.
Qed.
(** The locks of another stream of the process survive an interruption anywhere. *)
Example C110_locks_of_others_example : let '(f, g, w) := two in
  streaming f w (1, 10) 3 /\ well_made (mine w (1, 10) 3) /\ of_others w (1, 10) 3 <> []
  /\ forallb (fun n => let '(r, s) := close_i f (mkCst (Some n) false w) in
       match opens (c_world s) 3, opens (c_world s) 4, w_kern (c_world s) with
       | Some _, Some _, [k] => (k_pid k =? w_pid w) && (k_lo k =? 0)
       | _, _, _ => false
       end) (seq 0 15) = true.
Proof.
  vm_compute. split; [|split; [intros ? []|split; [discriminate|reflexivity]]].
  constructor; try reflexivity. eexists. split; reflexivity.
Qed.
Print Assumptions C110_uninterrupted.
Print Assumptions C110_first_instruction.
Print Assumptions C110_marking.
Print Assumptions C110_again.
Print Assumptions C110_only_its_own.
Print Assumptions C110_locks_of_others.
Print Assumptions C110_other_file_partial.
Print Assumptions C110_where.
Print Assumptions C110_closed_refuted.
Print Assumptions C110_released_refuted.
Print Assumptions C110_waiting_refuted.
Print Assumptions C110_other_file_refuted.
