(** C106, continued: what close() makes up for after an interrupted lock_file(). *)
From Coq Require Import ZArith Ascii String List Bool Lia.
From Verif Require Import M_Base M_Modes M_Registry M_Kernel M_World M_Raw M_Waiting M_Interrupt S_Interrupt S_Locks S_LockFile S_IntClose S_Demo
  P_Raw P_Registry P_RegEff P_Kernel P_Lock P_LockFile P_Turns P_Close C_Interrupt.
Import ListNotations.
Open Scope Z_scope.

Ltac parts := refine (conj _ (conj _ (conj _ (conj _ (conj _ (conj _ _)))))).
Section Recover.
Variables (f : rawio) (q : lockreq) (w0 : world).
Notation u := (uid_of f).
Notation fd := (fd_of f).
Hypothesis Hoff : 0 <= q_off q.
Hypothesis Hlen : match q_length q with Some l => 0 <= l | None => True end.
Definition own_recs (r : registry) : list lockrec := filter (fun lk => lk_handle lk =? fd) (locks_of r u).
(** The descriptors, the file and the descriptors that wait to be closed are as before, the records of the stream are ranges, and no outcome is
    new. *)
Definition J (w : world) : Prop :=
  (forall d, w_fds w d = w_fds w0 d) /\ w_inodes w u <> None /\ w_pid w = w_pid w0 /\ r_pid (w_reg w) = w_pid w0
  /\ data_of (w_reg w) u = pending w0 u /\ records_ok (own_recs (w_reg w)) /\ incl (w_io w) (w_io w0).
Definition Jt (t : turn * world) : Prop := J (snd t).

Lemma J_reg w r : J w -> r_pid r = w_pid w0 -> data_of r u = data_of (w_reg w) u -> records_ok (own_recs r) -> J (set_reg w r).
Proof. intros (J1 & J2 & J3 & J4 & J5 & J6 & J7) P D R. parts; auto. cbn [w_reg set_reg]. congruence. Qed.
Lemma J_io w io : J w -> incl io (w_io w) -> J (set_io w io).
Proof. intros (J1 & J2 & J3 & J4 & J5 & J6 & J7) P. parts; auto. cbn [w_io set_io]. eapply incl_tran; eauto. Qed.
Lemma J_kern w K : J w -> J (set_kern w K).
Proof. intros (J1 & J2 & J3 & J4 & J5 & J6 & J7). parts; auto. Qed.
Lemma sub_ok l l' : incl l l' -> records_ok l' -> records_ok l.
Proof. intros H R lk Hl. apply R, H, Hl. Qed.
Lemma sub_own r r' : incl (locks_of r u) (locks_of r' u) -> incl (own_recs r) (own_recs r').
Proof. intros H x. unfold own_recs. rewrite !filter_In. intros [X Y]. split; auto. Qed.

Lemma J_unregister w r w' : unregister f q w = (r, w') -> J w -> J w'.
Proof.
  unfold unregister. intros E Jw. destruct (unregister_file_lock _ _ _ _ _ _) as [[o reg] n] eqn:Eu.
  assert (w' = set_reg w reg) as -> by (destruct o; congruence). pose proof Jw as (J1 & J2 & J3 & J4 & J5 & J6 & J7).
  destruct (unregister_eff _ _ _ _ _ _ _ _ _ Eu) as (P & D & _ & _ & L).
  assert (C1 : check_forking (w_pid w) reg = reg) by (apply cf_own; exact P).
  assert (C2 : check_forking (w_pid w) (w_reg w) = w_reg w) by (apply cf_own; congruence).
  unfold ED, EL in *. rewrite C1, C2 in *. apply J_reg; auto; [congruence|].
  eapply sub_ok; [|exact J6]. apply sub_own.
  destruct L as [(_ & _ & _ & ->)|[(x & l1 & lk & l2 & _ & _ & -> & -> & _)|(x & _ & _ & -> & _)]].
  - intros y [].
  - intros y Hy. apply in_app_iff in Hy. apply in_app_iff. cbn. tauto.
  - apply incl_refl.
Qed.
Lemma J_fail b e w : J w -> Jt (turn_fail f q b e w).
Proof.
  intros Jw. unfold turn_fail, Jt. destruct b; auto. destruct (unregister f q w) as [[x|x] w'] eqn:E; eapply J_unregister; eauto.
Qed.
Lemma J_sleep ph e b w : J w -> Jt (turn_sleep f q ph e b w).
Proof. intros Jw. unfold turn_sleep. destruct (check_timeout _ _ _ _); [now apply J_fail|exact Jw]. Qed.
Lemma J_inside s w : J w -> Jt (inside f q s w).
Proof. intros Jw. destruct s; [now apply J_fail|now apply J_sleep]. Qed.
Lemma J_attempt c w : J w -> Jt (attempt_cut f q c w).
Proof.
  intros Jw. unfold attempt_cut. rewrite lock_attempt_eq. destruct (ksetlk _ _ _ _ _ _).
  - destruct c; try apply J_inside; now apply J_kern.
  - destruct (low_level_blocking f q); [exact Jw|now apply J_sleep].
Qed.
Lemma J_kern_cut c w : J w -> Jt (kern_cut f q c w).
Proof.
  intros Jw. unfold kern_cut. destruct (lock_pre_cases f q w) as (io & Hio & [(v & -> & _)|(e & ->)]).
  - apply J_attempt, J_io; auto.
  - apply J_sleep, J_io; auto.
Qed.
Lemma J_wait n w : J w -> J (snd (wait_count f n w)).
Proof.
  intros Jw. pose proof Jw as (J1 & J2 & J3 & J4 & J5 & J6 & J7). unfold wait_count, add_waiting.
  destruct (r_map (w_reg w) u) as [e|] eqn:E; [|exact Jw]. cbn [snd].
  assert (L : locks_of (w_reg w) u = e_locks e) by (unfold locks_of; now rewrite E).
  assert (D : data_of (w_reg w) u = e_data e) by (unfold data_of; now rewrite E).
  apply J_reg; auto.
  - unfold data_of at 1. rewrite reg_set_eq. now rewrite D.
  - unfold own_recs, locks_of in *. rewrite reg_set_eq. now rewrite E in J6.
Qed.
Lemma J_register c first w : J w -> Jt (register_cut f q c first w).
Proof.
  intros Jw. pose proof Jw as (J1 & J2 & J3 & J4 & J5 & J6 & J7). unfold register_cut, register_once.
  assert (C : (if first then check_forking (w_pid w) (w_reg w) else w_reg w) = w_reg w)
    by (destruct first; auto; apply cf_own; congruence).
  rewrite C. clear C. destruct (try_locking_range _ _ _ _ _ _) as [r reg] eqn:E.
  destruct (try_locking_cases _ _ _ _ _ _ _ _ E) as (L & P & _ & _ & D).
  assert (R : J (set_reg w reg)).
  { apply J_reg; auto; [congruence|apply D|].
    inversion L; subst; try (unfold own_recs in *; match goal with H : locks_of reg u = _ |- _ => rewrite H end; auto).
    rewrite filter_app'. cbn. rewrite Z.eqb_refl. intros lk Hl. apply in_app_iff in Hl.
    destruct Hl as [Hl|[<-|[]]]; [now apply J6|]. cbn. split; [exact Hoff|].
    unfold range_end. destruct (q_length q) as [n|]; [|exact Logic.I].
    destruct (Z.eqb_spec n 0); [exact Logic.I|lia]. }
  destruct r as [[|]|e]; [|destruct (low_level_blocking f q)|exact R].
  - destruct c; [now apply J_kern_cut|exact R|now apply J_kern_cut].
  - pose proof (J_wait 1 _ R) as X. destruct (wait_count f 1 (set_reg w reg)) as [[y|y] w2]; exact X.
  - now apply J_sleep.
Qed.
Lemma J_turn c ph w : J w -> Jt (turn_cut f q c ph w).
Proof.
  intros Jw. destruct ph; cbn [turn_cut].
  - now apply J_register.
  - pose proof (J_wait (-1) _ Jw) as X. destruct (wait_count f (-1) w) as [[y|y] w2]; [now apply J_register|exact X].
  - now apply J_kern_cut.
  - now apply J_attempt.
Qed.
Lemma J_env ev w : J w -> J (apply_env u fd ev w).
Proof.
  intros (J1 & J2 & J3 & J4 & J5 & J6 & J7).
  destruct (apply_env_fields f ev w []) as (_ & F1 & _ & _ & F2 & _ & _ & F3 & _). cbn in F1, F2, F3.
  pose proof (apply_env_reg f ev w) as R. pose proof (apply_env_inodes f ev w u) as N.
  assert (G : r_pid (w_reg (apply_env u fd ev w)) = w_pid w0 /\ data_of (w_reg (apply_env u fd ev w)) u = pending w0 u
              /\ own_recs (w_reg (apply_env u fd ev w)) = own_recs (w_reg w)).
  { rewrite R. destruct (ev_locks ev); auto. destruct (r_map (w_reg w) u) as [e|] eqn:E; auto.
    unfold own_recs, data_of, locks_of in *. rewrite reg_set_eq. rewrite E in J5 |- *. cbn [e_locks e_data]. repeat split; auto.
    apply mine_env_locks. }
  destruct G as (G1 & G2 & G3). unfold J. rewrite F1, F2, F3, G2, G3. parts; auto.
  rewrite N. destruct (ev_data ev); auto. rewrite uid_eqb_refl. destruct (w_inodes w u); [discriminate|auto].
Qed.
Lemma J_interrupt s ph w : J w -> Jt (interrupt f q s ph w).
Proof. intros Jw. destruct ph; cbn [interrupt]; [exact Jw|exact Jw|now apply J_fail|now apply J_inside]. Qed.
Lemma J_go hs : forall t, Jt t -> Jt (go_on f q hs t).
Proof.
  induction hs as [|[ev c|s] hs IH]; intros [[r|ph] w] H; cbn [go_on]; auto; apply IH.
  - apply J_turn, J_env, H.
  - apply J_interrupt, H.
Qed.
(** The first turn looks at the registry of this process. *)
Lemma register_first c w : register_cut f q c true w = register_cut f q c true (set_reg w (registry_of w)).
Proof.
  unfold register_cut, register_once, registry_of. cbn [w_reg w_pid set_reg].
  rewrite (cf_own (w_pid w) (check_forking (w_pid w) (w_reg w))) by apply cf_pid. reflexivity.
Qed.
End Recover.

(** Wherever lock_file() was interrupted, however often, and whatever others did meanwhile, close() still releases everything, if no other
    stream of the process has locks on the file then and no system call fails. *)
Theorem C106_close_makes_up f q c hs w u fd t w' : owning f w u fd -> well_made (mine w u fd) -> faultless w ->
  0 <= q_off q -> match q_length q with Some l => 0 <= l | None => True end ->
  lock_call f q c hs w = (t, w') -> of_others w' u fd = [] ->
  exists w'', raw_close f w' = (Ok tt, w'') /\ w_fds w'' fd = None /\ forall sh b, ~ process_holds w'' u sh b.
Proof.
  intros Ho Hm Hf Hoff Hlen E Hot. destruct Ho as [[Hop Hfd Huid Hfile] Hnz Hcf Hino Hfr Hnd Hpo].
  assert (U : uid_of f = u) by (unfold uid_of; now rewrite Huid).
  assert (D : fd_of f = fd) by (unfold fd_of; now rewrite Hfd).
  assert (J0 : J f w (set_reg w (registry_of w))).
  { unfold J. cbn [w_fds w_inodes w_pid w_reg w_io set_reg]. rewrite U. parts; auto using incl_refl.
    - apply cf_pid.
    - unfold own_recs. rewrite U, D. exact Hm. }
  unfold lock_call in E. cbn [turn_cut] in E. rewrite register_first in E.
  pose proof (J_go f q w Hoff Hlen hs _ (J_register f q w Hoff Hlen c true _ J0)) as X. rewrite E in X. unfold Jt in X. cbn [snd] in X.
  destruct X as (J1 & J2 & J3 & J4 & J5 & J6 & J7). rewrite U in *.
  assert (C : registry_of w' = w_reg w') by (apply cf_own; congruence).
  assert (P : pending w' u = pending w u) by (unfold pending at 1; rewrite C; exact J5).
  assert (M : own_recs f (w_reg w') = mine w' u fd) by (unfold own_recs, mine, table; now rewrite U, D, C).
  assert (O : owner f w' u fd).
  { constructor; auto; [rewrite J1; exact Hfile| |now rewrite P].
    split; rewrite P; auto. intros d Hd. rewrite J1. auto. }
  destruct (raw_close_ok f w' u fd O Hop Hcf) as (w2 & C1 & _ & _ & C2 & _ & _ & C3 & _).
  - rewrite <- M. exact J6.
  - intros _ e He. apply (Hf e), J7, He.
  - exists w2. split; [exact C1|]. destruct C3 as [(_ & C3 & C4 & _)|(C3 & _)]; [auto|]. exfalso. apply C3. rewrite C2. exact Hot.
Qed.
(** Both gaps of C106: the lock that the registry forgot, the record without a lock. *)
Example forgotten_lock_released : let '(f, w) := one_stream [] in
  let '(t, w') := lock_call f whole (AfterLock (SExc 1)) [] w in let '(r, w'') := raw_close f w' in
  (t, w_kern w', r, w_fds w'' 3, w_kern w'') = (TDone (Err (EUser 1)), [mkSeg 100 (1, 10) false 0 None], Ok tt, None, []).
Proof. vm_compute. reflexivity. Qed.
Example stale_record_removed : let '(f, w) := one_stream [] in
  let '(t, w') := lock_call f whole (AfterRegister (SExc 1)) [] w in let '(r, w'') := raw_close f w' in
  (t, table w' (1, 10), r, table w'' (1, 10)) = (TDone (Err (EUser 1)), [mkLock 3 false 0 None], Ok tt, []).
Proof. vm_compute. reflexivity. Qed.
Example one_stream_owning : let '(f, w) := one_stream [] in owning f w (1, 10) 3 /\ well_made (mine w (1, 10) 3) /\ faultless w.
Proof.
  destruct (one_stream []) as [f w] eqn:E. vm_compute in E. injection E as <- <-. split; [|split].
  - constructor; [constructor; try reflexivity; vm_compute; eexists; split; reflexivity|discriminate|reflexivity|vm_compute; discriminate
                 |vm_compute; tauto|vm_compute; constructor|vm_compute; tauto].
  - intros lk [].
  - intros e [].
Qed.
(** It is needed that no other stream has locks: with a lock of another stream, the lock the registry forgot outlives close(). *)
Theorem C106_close_waits_refuted :
  ~ (forall f q c w u fd e w', owning f w u fd -> well_made (mine w u fd) -> faultless w ->
       0 <= q_off q -> match q_length q with Some l => 0 <= l | None => True end ->
       lock_call f q c [] w = (TDone (Err e), w') ->
       exists w'', raw_close f w' = (Ok tt, w'') /\ forall sh b, process_holds w'' u sh b -> process_holds w u sh b).
Proof.
  intros H. set (s := let '(f, w) := one_stream [] in let '(g, w') := demo_open "f" true true false w in
    (f, snd (raw_lock_file g PNone (PInt 5) (PInt 0) 0 SNone w'))).
  pose (rq := mkReq (Some 5) 10 false None 0).
  specialize (H (fst s) rq (AfterLock (SExc 1)) (snd s) (1, 10) 3 (EUser 1) (snd (lock_call (fst s) rq (AfterLock (SExc 1)) [] (snd s)))).
  destruct H as (w'' & E & X).
  - constructor; [constructor; try reflexivity; vm_compute; eexists; split; reflexivity|discriminate|reflexivity|vm_compute; discriminate
                 |vm_compute; tauto|vm_compute; constructor|vm_compute; tauto].
  - vm_compute. intros lk [].
  - vm_compute. intros e [].
  - vm_compute. discriminate.
  - vm_compute. discriminate.
  - vm_compute. reflexivity.
  - vm_compute in E. injection E as <-.
    destruct (X false 12) as (k & Hk & K1 & K2 & K3 & K4).
    + exists (mkSeg 100 (1, 10) false 10 (Some 15)). cbn. repeat split; auto; lia.
    + vm_compute in Hk. destruct Hk as [<-|[]]. unfold in_range in K4. cbn in K4. lia.
Qed.

Lemma reg_unlock f q s first w w' length r w'' : f_closed f = false -> f_seekable f = true -> parg_opt length = q_length q ->
  ~ wrong_nonneg length -> 0 <= q_off q -> lockable f w (q_shared q) -> r_pid (w_reg w) = w_pid w ->
  register_cut f q (AfterRegister s) first w = (TDone (Err (raised s)), w') -> raw_unlock_file f length (PInt (q_off q)) 0 w' = (r, w'') ->
  mine w'' (uid_of f) (fd_of f) = mine w (uid_of f) (fd_of f)
  /\ (forall sh b, covers (q_off q) (q_length q) b -> ~ process_holds w'' (uid_of f) sh b)
  /\ (pending w (uid_of f) = [] -> r = Ok tt).
Proof.
  intros Hc Hs El Hw Hoff [(o & Ho & Hu & _) Hi Hio] Hp E Eu.
  assert (Hlen : match q_length q with Some l => 0 <= l | None => True end).
  { rewrite <- El. destruct length; cbn; auto. destruct (Z_lt_le_dec z 0); auto. exfalso. apply Hw. right. eauto. }
  assert (R0 : registry_of w = w_reg w) by (apply cf_own; exact Hp).
  assert (C : (if first then check_forking (w_pid w) (w_reg w) else w_reg w) = w_reg w) by (destruct first; auto; exact R0).
  unfold register_cut, register_once in E. rewrite C, <- R0 in E. clear C.
  destruct (try_locking_range _ _ _ _ _ _) as [x reg] eqn:Et.
  destruct (try_locking_cases _ _ _ _ _ _ _ _ Et) as (L & P & _ & _ & D).
  assert (Hreg : x = Ok true /\ w' = set_reg w reg).
  { destruct x as [[|]|y].
    - injection E as <-. split; reflexivity.
    - exfalso. destruct (low_level_blocking f q).
      + unfold wait_count in E. destruct (add_waiting _ _ _) eqn:Ea; [discriminate|]. injection E as E _.
        unfold add_waiting in Ea. destruct (r_map _ _); [discriminate|]. injection Ea as <-. destruct s; discriminate.
      + unfold turn_sleep, turn_fail in E. destruct (check_timeout _ _ _ _) as [y|] eqn:Ec; [|discriminate].
        injection E as E _. subst y. unfold check_timeout in Ec.
        repeat match type of Ec with context [match ?z with _ => _ end] => destruct z end; destruct s; discriminate.
    - exfalso. inversion L; subst. injection E as E _. destruct s; discriminate. }
  destruct Hreg as [-> ->]. inversion L as [r' Hno Hl| |]; subst.
  assert (Cr : registry_of (set_reg w reg) = reg) by (apply cf_own; cbn; rewrite P; apply cf_pid).
  set (new := mkLock (fd_of f) (q_shared q) (q_off q) (range_end (q_off q) (q_length q))) in *.
  assert (M : mine (set_reg w reg) (uid_of f) (fd_of f) = mine w (uid_of f) (fd_of f) ++ [new]).
  { unfold mine at 1, table. rewrite Cr. change (filter (fun lk => lk_handle lk =? fd_of f) (locks_of reg (uid_of f)) = mine w (uid_of f) (fd_of f) ++ [new]).
    rewrite Hl, filter_app'. cbn. rewrite Z.eqb_refl. reflexivity. }
  assert (Pd : pending (set_reg w reg) (uid_of f) = pending w (uid_of f)).
  { unfold pending at 1. rewrite Cr. apply D. }
  assert (Eu' : raw_unlock_file f (match q_length q with None => PNone | Some l => PInt l end) (PInt (q_off q)) 0 (set_reg w reg) = (r, w'')).
  { rewrite <- Eu, <- El. destruct length; cbn [parg_opt]; try reflexivity. exfalso. apply Hw. now left. }
  destruct (unlock_file_ok f (q_length q) (q_off q) (set_reg w reg) Hc Hs Hoff Hlen) with (r := r) (w' := w'') as ((m1 & lk & m2 & M1 & M2 & K1 & K2) & N & R); auto.
  - exists new. rewrite M. split; [apply in_app_iff; right; now left|]. split; reflexivity.
  - exists o. auto.
  - split; [|split; [exact N|rewrite <- Pd; exact R]]. rewrite M2. rewrite M in M1.
    destruct m2 as [|y' m2].
    + apply app_inj_tail in M1. now rewrite app_nil_r.
    + exfalso. destruct (@exists_last _ (y' :: m2) ltac:(discriminate)) as (m4 & z & Ez). rewrite Ez in M1.
      change (m1 ++ lk :: m4 ++ [z]) with (m1 ++ (lk :: m4) ++ [z]) in M1. rewrite app_assoc in M1. apply app_inj_tail in M1.
      assert (Hin : In lk (mine w (uid_of f) (fd_of f))) by (destruct M1 as [-> _]; apply in_app_iff; right; now left).
      unfold mine in Hin. apply filter_In in Hin. destruct Hin as [Hin Hh]. apply Z.eqb_eq in Hh.
      apply (proj1 (Hno lk Hin)). apply (matches_conflict f q Hlen). repeat split; auto.
Qed.
(** Interrupted between register_file_lock and the [try], at the first attempt, the record that stays is removed by unlock_file() of the same
    bytes: the stream's records are as before lock_file(), and the process has no lock there. *)
Theorem C106_unlock_makes_up f q s w w' length r w'' : f_closed f = false -> f_seekable f = true -> parg_opt length = q_length q ->
  ~ wrong_nonneg length -> 0 <= q_off q -> lockable f w (q_shared q) ->
  lock_call f q (AfterRegister s) [] w = (TDone (Err (raised s)), w') -> raw_unlock_file f length (PInt (q_off q)) 0 w' = (r, w'') ->
  mine w'' (uid_of f) (fd_of f) = mine w (uid_of f) (fd_of f)
  /\ (forall sh b, covers (q_off q) (q_length q) b -> ~ process_holds w'' (uid_of f) sh b)
  /\ (pending w (uid_of f) = [] -> r = Ok tt).
Proof.
  intros Hc Hs El Hw Hoff Hl E Eu. unfold lock_call in E. cbn [turn_cut go_on] in E. rewrite register_first in E.
  assert (Hl' : lockable f (norm w) (q_shared q)) by (destruct Hl; constructor; auto).
  pose proof (reg_unlock f q s true (norm w) w' length r w'' Hc Hs El Hw Hoff Hl' (norm_rpid w) E Eu) as X.
  unfold mine, table, pending in *. rewrite norm_registry in X. exact X.
Qed.
(** The same after any number of waits in the registry, whatever others did meanwhile. *)
Theorem C106_unlock_makes_up_later f q hs ev s w ph w1 w' length r w'' : f_closed f = false -> f_seekable f = true ->
  parg_opt length = q_length q -> ~ wrong_nonneg length -> 0 <= q_off q -> lockable f w (q_shared q) ->
  Forall in_waits hs -> lock_call f q NoCut hs w = (TWait ph, w1) -> ph = PhReg \/ ph = PhRegWait ->
  lock_call f q NoCut (hs ++ [Wake ev (AfterRegister s)]) w = (TDone (Err (raised s)), w') ->
  raw_unlock_file f length (PInt (q_off q)) 0 w' = (r, w'') ->
  mine w'' (uid_of f) (fd_of f) = mine w (uid_of f) (fd_of f)
  /\ (forall sh b, covers (q_off q) (q_length q) b -> ~ process_holds w'' (uid_of f) sh b)
  /\ (pending w (uid_of f) = [] -> r = Ok tt).
Proof.
  intros Hc Hs El Hw Hoff [(o & Ho & Hu & Ha) Hi Hio] Hhs E1 Hph E Eu.
  assert (Hlen : match q_length q with Some l => 0 <= l | None => True end).
  { rewrite <- El. destruct length; cbn; auto. destruct (Z_lt_le_dec z 0); auto. exfalso. apply Hw. right. eauto. }
  pose proof (call_stands f q Hlen hs w Hhs) as St. rewrite E1 in St. destruct St as [[L _]|(e & w2 & X & _)]; [|discriminate].
  unfold lock_call in E, E1. rewrite go_app, E1 in E. cbn [go_on] in E. apply linv_act with (ev := ev) in L.
  assert (exists first v, linv f q false (norm w) PhReg v /\ register_cut f q (AfterRegister s) first v = (TDone (Err (raised s)), w')) as (first & v & Lv & Ev).
  { destruct Hph as [-> | ->]; cbn [turn_cut] in E; [eauto|].
    destruct (wait_down f q _ _ _ L) as (v & Ed & Lv & _). rewrite Ed in E. eauto. }
  destruct Lv.
  assert (Rv : registry_of v = w_reg v) by (apply cf_own; exact li_rpid).
  assert (Hl' : lockable f v (q_shared q)).
  { constructor.
    - exists o. rewrite li_fds. auto.
    - cbn in li_inode. destruct (w_inodes w (uid_of f)); [|congruence]. destruct li_inode as (i' & -> & _). discriminate.
    - intros e He. apply (Hio e), li_io, He. }
  pose proof (reg_unlock f q s first v w' length r w'' Hc Hs El Hw Hoff Hl' li_rpid Ev Eu) as (X1 & X2 & X3).
  split; [|split; [exact X2|]].
  - rewrite X1. unfold mine, table. rewrite Rv. cbn [is_reg] in li_mine. rewrite app_nil_r in li_mine. exact li_mine.
  - intros Hp. apply X3. unfold pending. rewrite Rv. transitivity (pending w (uid_of f)); [exact li_data|exact Hp].
Qed.
Example unlock_makes_up : let '(f, w) := one_stream [] in
  let '(t, w') := lock_call f whole (AfterRegister (SExc 1)) [] w in let '(r, w'') := raw_unlock_file f PNone (PInt 0) 0 w' in
  (t, table w' (1, 10), r, table w'' (1, 10)) = (TDone (Err (EUser 1)), [mkLock 3 false 0 None], Ok tt, []).
Proof. vm_compute. reflexivity. Qed.
Example unlock_makes_up_later : let '(f, g, w) := two_streams in
  let '(t1, w1) := lock_call f whole NoCut [] w in
  let '(t, w') := lock_call f whole NoCut [Wake (mkEv 1 None (Some []) None) (AfterRegister (SExc 1))] w in
  let '(r, w'') := raw_unlock_file f PNone (PInt 0) 0 w' in
  (t1, t, mine w' (1, 10) 3, r, mine w'' (1, 10) 3) = (TWait PhRegWait, TDone (Err (EUser 1)), [mkLock 3 false 0 None], Ok tt, []).
Proof. vm_compute. reflexivity. Qed.

Print Assumptions C106_unlock_makes_up.
Print Assumptions C106_unlock_makes_up_later.
Print Assumptions C106_close_makes_up.
Print Assumptions C106_close_waits_refuted.
