(** What lock_file leaves of the environment: the events are consumed in order, and the file
    locked has the content the consumed events gave it. *)
From Coq Require Import ZArith List Bool Lia Ascii.
From Verif Require Import M_Base M_Modes M_Registry M_Kernel M_World M_Raw M_Open S_Locks S_LockFile S_Open S_Files
  P_Modes P_Raw P_Registry P_Kernel P_Lock P_LockFile P_Close P_Frame C_Lock P_Open.
Import ListNotations.
Open Scope Z_scope.

Section LoopEnv.
Variables (f : rawio) (q : lockreq) (P : world -> Prop).
Hypothesis Preg : forall w r, P w -> P (set_reg w r).
Hypothesis Pio : forall w r, P w -> P (set_io w r).
Hypothesis Pkern : forall w sh off l K, ksetlk (w_kern w) (w_pid w) (uid_of f) sh off l = Some K -> P w -> P (set_kern w K).
Hypothesis Penv : forall w ev r, w_env w = ev :: r -> P w -> P (set_env (apply_env (uid_of f) (fd_of f) ev w) r).

Section Step.
Variable env : list envev.
Definition here (w : world) : Prop := w_env w = env /\ P w.
Lemma here_reg w r : here w -> here (set_reg w r).
Proof. intros [A B]. split; auto. Qed.
Lemma here_io w r : here w -> here (set_io w r).
Proof. intros [A B]. split; auto. Qed.
Hypothesis IH : forall ev env' ph w r w', env = ev :: env' -> lock_loop f q env' ph w = (r, w') -> w_env w = env' /\ P w -> P w'.

Lemma env_fail reg e w r w' : l_fail f q reg e w = (r, w') -> here w -> P w'.
Proof.
  intros H Q. eapply (inv_fail f q here) in H; [apply H| |exact Q]. apply here_reg.
Qed.
Lemma env_wait ph w r w' : l_wait f q env ph w = (r, w') -> here w -> P w'.
Proof.
  unfold l_wait. intros H [Q1 Q2]. destruct env as [|ev env'] eqn:Ee; [injection H as <- <-; auto|].
  eapply IH; [reflexivity|exact H|]. split; [reflexivity|]. now apply Penv.
Qed.
Lemma env_sleep ph n reg w r w' : l_sleep f q env ph n reg w = (r, w') -> here w -> P w'.
Proof. unfold l_sleep. destruct (check_timeout f q _ _); [apply env_fail|apply env_wait]. Qed.
Lemma env_attempt w r w' : l_attempt f q env w = (r, w') -> here w -> P w'.
Proof.
  unfold l_attempt, lock_attempt. destruct (ksetlk _ _ _ _ _ _) eqn:Ek.
  - intros [= <- <-] [_ H]. eapply Pkern; eauto.
  - destruct (low_level_blocking f q); [apply env_wait|apply env_sleep].
Qed.
Lemma env_kern w r w' : l_kern f q env w = (r, w') -> here w -> P w'.
Proof.
  unfold l_kern. destruct (lock_pre _ _ _ w) as [r1 w1] eqn:Ep. intros H HP.
  apply (inv_lock_pre here here_io _ _ _ _ _ _ Ep) in HP.
  destruct r1 as [x|[]]; try (eapply env_fail; eauto; fail); [eapply env_attempt; eauto|eapply env_sleep; eauto].
Qed.
Lemma env_register b w r w' : l_register f q env b w = (r, w') -> here w -> P w'.
Proof.
  unfold l_register. destruct (register_once _ _ _ _ _ _ _ _) as [r1 reg]. intros H HP.
  apply (here_reg _ reg) in HP. destruct r1 as [[]|e]; [eapply env_kern; eauto| |injection H as <- <-; apply HP].
  destruct (low_level_blocking f q); [|eapply env_sleep; eauto].
  destruct (wait_count f 1 (set_reg w reg)) as [r2 w2] eqn:Ew. apply (inv_wait_count f here here_reg _ _ _ _ Ew) in HP.
  destruct r2; [eapply env_wait; eauto|injection H as <- <-; apply HP].
Qed.
Lemma env_step ph w r w' : lock_loop f q env ph w = (r, w') -> here w -> P w'.
Proof.
  rewrite lock_loop_eq. destruct ph; [apply env_register| |apply env_kern|apply env_attempt].
  destruct (wait_count f (-1) w) as [r2 w2] eqn:Ew. intros H HP. apply (inv_wait_count f here here_reg _ _ _ _ Ew) in HP.
  destruct r2; [eapply env_register; eauto|injection H as <- <-; apply HP].
Qed.
End Step.

Lemma lock_loop_env : forall env ph w r w', lock_loop f q env ph w = (r, w') -> w_env w = env -> P w -> P w'.
Proof.
  induction env as [|ev env IH]; intros ph w r w' H E HP; eapply env_step; eauto; try (split; auto).
  - discriminate.
  - intros ev' env' ph' w1 r1 w1' [= <- <-] H1 [H2 H3]. eapply IH; eauto.
Qed.
End LoopEnv.

(** The file after what others did during the waits [evs]. *)
Definition after_events (evs : list envev) (i : inode) : inode :=
  fold_left (fun i ev => match ev_data ev with Some d => mkIno (n_kind i) d true | None => i end) evs i.
Lemma after_events_data evs : forall i, n_data (after_events evs i) = content_after evs (n_data i).
Proof. induction evs as [|ev evs IH]; intros i; [reflexivity|]. cbn. rewrite IH. now destruct (ev_data ev). Qed.
Lemma after_events_app a b i : after_events (a ++ b) i = after_events b (after_events a i).
Proof. apply fold_left_app. Qed.
Lemma apply_env_env u fd ev w : w_env (apply_env u fd ev w) = w_env w.
Proof.
  unfold apply_env. cbv zeta. destruct (ev_data ev), (ev_kern ev), (ev_locks ev); cbn;
   repeat match goal with |- context [match ?x with _ => _ end] => destruct x end; reflexivity.
Qed.

Lemma lock_file_events f t l o wh s w r w' : raw_lock_file f t l o wh s w = (r, w') ->
  exists past, w_env w = past ++ w_env w'
    /\ forall v, w_inodes w' v = if uid_eqb (uid_of f) v then option_map (after_events past) (w_inodes w v) else w_inodes w v.
Proof.
  assert (exists past, w_env w = past ++ w_env w
    /\ forall v, w_inodes w v = if uid_eqb (uid_of f) v then option_map (after_events past) (w_inodes w v) else w_inodes w v) as H0.
  { exists []. split; [reflexivity|]. intros v. destruct (uid_eqb (uid_of f) v); auto. now destruct (w_inodes w v). }
  rewrite lock_file_args. intros H.
  destruct (f_closed f); [injection H as <- <-; exact H0|].
  destruct (negb (f_seekable f)); [injection H as <- <-; exact H0|].
  destruct (negb (args_ok _ _ _ _ _ _)); [injection H as <- <-; exact H0|].
  destruct (negb (share_ok _ _)); [injection H as <- <-; exact H0|].
  destruct (abs_offset f o wh w) as [r1 w1] eqn:Eo. apply abs_offset_pres in Eo. destruct Eo as [F1 F2].
  assert (w_inodes w1 = w_inodes w /\ w_env w1 = w_env w) as [I1 V1] by (rewrite F2; auto).
  destruct r1 as [off|e]; [|injection H as <- <-; rewrite I1, V1; exact H0].
  set (q := mkReq _ _ _ _ _) in H.
  destruct (lock_loop f q (w_env w1) PhReg w1) as [r2 w2] eqn:El.
  assert (w' = w2) as -> by (destruct r2; now injection H).
  set (P := fun x : world => exists past, w_env w = past ++ w_env x
    /\ forall v, w_inodes x v = if uid_eqb (uid_of f) v then option_map (after_events past) (w_inodes w v) else w_inodes w v).
  apply (lock_loop_env f q P) in El; auto.
  - intros x ev rr Ex (past & A & B). exists (past ++ [ev]). rewrite <- app_assoc. cbn [app]. split; [cbn [set_env w_env]; congruence|].
    intros v. cbn [set_env w_inodes]. rewrite apply_env_inodes.
    assert (X : forall i, after_events (past ++ [ev]) i
              = match ev_data ev with Some d => mkIno (n_kind (after_events past i)) d true | None => after_events past i end).
    { intros i. rewrite after_events_app. reflexivity. }
    pose proof (B v) as Bv. destruct (uid_eqb (uid_of f) v) eqn:Eu.
    + apply P_Raw.uid_eqb_eq in Eu. subst v.
      destruct (w_inodes w (uid_of f)) as [i|]; cbn [option_map] in *; rewrite Bv; [rewrite X|]; destruct (ev_data ev); reflexivity.
    + destruct (ev_data ev); exact Bv.
  - unfold P. rewrite I1, V1. exact H0.
Qed.

(** The locks of the other processes are those of the consumed events. *)
Lemma ksetlk_others K pid u sh lo hi K' s : ksetlk K pid u sh lo hi = Some K' -> k_pid s <> pid -> In s K -> In s K'.
Proof.
  unfold ksetlk. destruct (existsb _ _); [discriminate|]. intros [= <-] Hp Hs. right. unfold kunlock. apply in_flat_map.
  exists s. split; [exact Hs|]. destruct (own pid u s) eqn:E; [|now left]. apply own_spec in E. destruct E. congruence.
Qed.
Lemma locks_after_app a b K : locks_after (a ++ b) K = locks_after b (locks_after a K).
Proof. apply fold_left_app. Qed.

Lemma lock_file_locks f t l o wh s w r w' : raw_lock_file f t l o wh s w = (r, w') ->
  exists past, w_env w = past ++ w_env w' /\ w_pid w' = w_pid w
    /\ forall g, k_pid g <> w_pid w -> In g (locks_after past (w_kern w)) -> In g (w_kern w').
Proof.
  assert (exists past, w_env w = past ++ w_env w /\ w_pid w = w_pid w
    /\ forall g, k_pid g <> w_pid w -> In g (locks_after past (w_kern w)) -> In g (w_kern w)) as H0.
  { exists []. auto. }
  rewrite lock_file_args. intros H.
  destruct (f_closed f); [injection H as <- <-; exact H0|].
  destruct (negb (f_seekable f)); [injection H as <- <-; exact H0|].
  destruct (negb (args_ok _ _ _ _ _ _)); [injection H as <- <-; exact H0|].
  destruct (negb (share_ok _ _)); [injection H as <- <-; exact H0|].
  destruct (abs_offset f o wh w) as [r1 w1] eqn:Eo. apply abs_offset_pres in Eo. destruct Eo as [F1 F2].
  assert (w_kern w1 = w_kern w /\ w_env w1 = w_env w /\ w_pid w1 = w_pid w) as (I1 & V1 & D1) by (rewrite F2; auto).
  destruct r1 as [off|e]; [|injection H as <- <-; rewrite I1, V1, D1; exact H0].
  set (q := mkReq _ _ _ _ _) in H.
  destruct (lock_loop f q (w_env w1) PhReg w1) as [r2 w2] eqn:El.
  assert (w' = w2) as -> by (destruct r2; now injection H).
  set (P := fun x : world => exists past, w_env w = past ++ w_env x /\ w_pid x = w_pid w
    /\ forall g, k_pid g <> w_pid w -> In g (locks_after past (w_kern w)) -> In g (w_kern x)).
  apply (lock_loop_env f q P) in El; auto.
  - intros x sh oo ll K Hk (past & A & B & C). exists past. split; [exact A|]. split; [exact B|]. intros g Hg Hi. cbn [set_kern w_kern].
    eapply ksetlk_others; [exact Hk|now rewrite B|auto].
  - intros x ev rr Ex (past & A & B & C). exists (past ++ [ev]). rewrite <- app_assoc. cbn [app]. split; [cbn [set_env w_env]; congruence|].
    split. { destruct (apply_env_fields f ev x rr) as (_ & _ & _ & _ & X & _). rewrite X. exact B. }
    intros g Hg. rewrite locks_after_app. cbn [locks_after fold_left set_env w_kern]. rewrite apply_env_kern.
    destruct (ev_kern ev) as [K|]; [|auto]. intros Hi. apply in_or_app. right. apply filter_In. split; [exact Hi|].
    rewrite B. apply negb_true_iff, Z.eqb_neq. exact Hg.
  - unfold P. rewrite I1, V1, D1. exact H0.
Qed.
