(** C67: a lock that conflicts with nothing can be obtained, whatever happened before; a child process forked
    during a critical section of another thread never obtains any. *)
From Coq Require Import ZArith List Bool Lia ZifyBool.
From Verif Require Import M_Base M_Registry M_Kernel M_LockSys S_Locks S_LockSys P_Registry P_RegEff P_Kernel P_LockInv P_LockStep
  P_LockMicro P_LockMain P_LockExtra C_LockSys.
Import ListNotations.
Open Scope Z_scope.

(** No thread is inside a method of rsfile. *)
Definition all_idle (s : sys) : Prop :=
  forall p P t c, s_procs s p = Some P -> nth_error (p_thr P) t = Some c -> c = PIdle.

(** No lock that was granted, through this stream or another one, stands in the way of the request. *)
Definition nothing_in_the_way (s : sys) (p fd : Z) (u : uid) (len : option Z) (off : Z) (sh : bool) : Prop :=
  forall h b, In h (s_holds s) -> h_uid h = u -> in_range (lk_start (h_lock h)) (lk_end (h_lock h)) b -> covers off len b ->
    lk_shared (h_lock h) = true /\ sh = true /\ ~ (h_pid h = p /\ lk_handle (h_lock h) = fd).

Lemma upd_same {V} (f : Z -> V) k v : upd Z.eqb f k v k = v.
Proof. unfold upd. now rewrite Z.eqb_refl. Qed.

(** ** C67 *)
(** After every history, when nobody is in the middle of a call: a request of a process (that was not
    forked during a critical section) with which no granted lock conflicts is granted at the first attempt, whatever streams were
    closed, threads killed with their process, attempts abandoned before. *)
Theorem C67_free_lock_obtained_partial : forall acts s p P t fd st len off sh block,
  exec anything init_sys acts = Some s -> all_idle s ->
  s_procs s p = Some P -> p_mutex P <> MDead -> (t < length (p_thr P))%nat ->
  p_streams P fd = Some st -> good_len len = true -> 0 <= off ->
  nothing_in_the_way s p fd (st_uid st) len off sh ->
  exists s', exec anything s [ALock p t fd len off sh block; ARegister p t; AKern p t] = Some s'
    /\ s_holds s' = mkHold p (st_uid st) (mkLock fd sh off (range_end off len)) :: s_holds s.
Proof.
  intros acts s p P t fd st len off sh block E Hid Hp Hm Ht Hst Hl Ho Hfree.
  pose proof (reach_any _ _ E) as SI. pose proof (s_live _ _ _ _ SI _ _ Hp) as I.
  destruct (nth_error (p_thr P) t) as [c|] eqn:Hc; [|apply nth_error_None in Hc; lia].
  pose proof (Hid p P t c Hp Hc) as ->.
  assert (p_mutex P = MFree) as Hmf.
  { destruct (p_mutex P) as [|t'|] eqn:Q; auto; [|contradiction].
    destruct (i_held _ _ _ _ _ _ _ _ I t' Q) as (g & X). pose proof (Hid _ _ _ _ Hp X). discriminate. }
  assert (is_busy P fd = false) as Hb.
  { unfold is_busy. apply not_true_is_false. intros X. apply existsb_exists in X. destruct X as (x & X1 & X2).
    apply In_nth_error in X1. destruct X1 as (i & X1). rewrite (Hid _ _ _ _ Hp X1) in X2. discriminate. }
  set (q := mkReq fd (st_uid st) len off sh block).
  destruct (register_once true p (p_reg P) (st_uid st) fd len off sh) as [o r] eqn:Er.
  destruct (register_eff _ _ _ _ _ _ _ _ _ Er) as (_ & _ & _ & _ & _ & C).
  (* what is recorded was granted *)
  assert (forall lk, In lk (EL p (p_reg P) (st_uid st)) -> In (mkHold p (st_uid st) lk) (s_holds s)) as Hrec.
  { intros lk L. destruct (i_conf _ _ _ _ _ _ _ _ I _ lk L) as [X|(t' & c' & X1 & X2)]; auto.
    rewrite (Hid _ _ _ _ Hp X1) in X2. destruct X2. }
  assert (o = Ok true) as ->.
  { destruct C as [(-> & _)|[(-> & _ & lk & L1 & (L2 & L3 & b & B1 & B2))|(-> & _ & lk & L1 & (L2 & b & B1 & B2))]]; auto; exfalso;
    destruct (Hfree _ b (Hrec lk L1) eq_refl B1 (proj1 (range_end_covers _ _ _) B2)) as (Y1 & Y2 & Y3); cbn in *; tauto. }
  pose proof (i_str _ _ _ _ _ _ _ _ I _ _ Hst) as (Hfd & _).
  destruct (ksetlk (s_kern s) p (st_uid st) sh off (kernel_end off len)) as [K|] eqn:EK.
  2:{ exfalso. apply ksetlk_refused in EK. destruct EK as (p' & sh' & b & Hne & Hk & Hr & Hn).
      pose proof (s_dead_k _ _ _ _ SI _ _ _ _ Hk) as Hal. destruct (s_procs s p') as [P'|] eqn:Hp'; [|congruence].
      pose proof (s_live _ _ _ _ SI _ _ Hp') as I'.
      destruct (i_kern _ _ _ _ _ _ _ _ I' _ _ _ Hk) as [(lk & L1 & L2 & L3)|(t' & g & _ & _ & X & _)].
      2:{ pose proof (Hid _ _ _ _ Hp' X). discriminate. }
      rewrite kernel_end_range in Hr. apply (proj1 (range_end_covers _ _ _)) in Hr.
      destruct (Hfree _ b L1 eq_refl L2 Hr) as (Y1 & Y2 & _). cbn in Y1. apply Hn. split; congruence. }
  set (P1 := set_pc P t (PLockReg q)). set (s1 := set_proc s p (Some P1)).
  assert (step s (ALock p t fd len off sh block) = Some s1) as E1.
  { cbn [step]. now rewrite Hp, Hc, Hst, Hb, Hl. }
  set (P2 := set_pc (with_reg P1 r) t (PLockKern q)). set (s2 := set_proc s1 p (Some P2)).
  assert (nth_error (p_thr P1) t = Some (PLockReg q)) as N1 by (cbn; eapply nth_update_same; eauto).
  assert (nth_error (p_thr P2) t = Some (PLockKern q)) as N2 by (cbn in *; eapply nth_update_same; eauto).
  assert (s_procs s1 p = Some P1) as Hp1 by apply upd_same.
  assert (s_procs s2 p = Some P2) as Hp2 by apply upd_same.
  assert (step s1 (ARegister p t) = Some s2) as E2.
  { cbn [step]. rewrite Hp1, N1. assert (mutex_free P1 = true) as -> by (unfold mutex_free; cbn; now rewrite Hmf).
    change (p_reg P1) with (p_reg P). unfold q at 1 2 3 4 5. cbn [q_uid q_fd q_len q_off q_shared]. rewrite Er. reflexivity. }
  eexists. split.
  - cbn [exec anything]. rewrite E1, E2. cbn [step]. rewrite Hp2, N2. change (p_fds P2 (q_fd q)) with (p_fds P fd). rewrite Hfd.
    assert (q_off q <? 0 = false) as -> by (cbn; lia).
    change (s_kern s2) with (s_kern s). unfold q at 1 2 3 4. cbn [q_shared q_off q_len]. rewrite EK. reflexivity.
  - reflexivity.
Qed.

(** A thread that cannot have a lock, nor get further than the entrance of the registry. *)
Definition at_the_door (c : pc) : Prop := match c with PIdle | PLockReg _ => True | _ => False end.
Definition locked_out (s : sys) (c : Z) : Prop :=
  (forall h, In h (s_holds s) -> h_pid h <> c)
  /\ match s_procs s c with
     | Some C => p_mutex C = MDead /\ forall t x, nth_error (p_thr C) t = Some x -> at_the_door x
     | None => False
     end.

Lemma nth_update_cases {A} (l : list A) i x j y : nth_error (nth_update l i x) j = Some y -> y = x \/ nth_error l j = Some y.
Proof.
  revert i j. induction l as [|a l IH]; intros [|i] [|j]; cbn; intros H; try discriminate; auto.
  - injection H as ->. auto.
  - eauto.
Qed.

Lemma locked_out_step s a s' c : locked_out s c -> step s a = Some s' -> a <> AExit c -> locked_out s' c.
Proof.
  intros (H & L) E Hx. destruct (s_procs s c) as [C|] eqn:Hc; [|contradiction]. destruct L as [L1 L2].
  destruct (Z.eq_dec (acts_on a) c) as [Ha|Ha].
  - unfold locked_out.
    destruct a; cbn [acts_on] in Ha; subst; cbn [step] in E; rewrite ?Hc in E; try discriminate E; try congruence.
    + injection E as <-. cbn. rewrite upd_same. split; [exact H|]. split; [exact L1|]. cbn. intros t x X.
      destruct (nth_error (p_thr C) t) eqn:Q.
      * apply (L2 t). rewrite nth_error_app1 in X by (apply nth_error_Some; congruence). congruence.
      * apply nth_error_None in Q. rewrite nth_error_app2 in X by auto. destruct (t - length (p_thr C))%nat as [|[]]; cbn in X; try discriminate.
        injection X as <-. exact Logic.I.
    + destruct (s_procs s p); discriminate.
    + destruct (p_fds C fd); [discriminate|]. destruct (0 <? fd); [|discriminate]. injection E as <-. cbn. rewrite upd_same. auto.
    + destruct (p_fds C fd); [discriminate|]. injection E as <-. cbn. rewrite upd_same. auto.
    + destruct (p_fds C fd); [|discriminate]. destruct (_ && _); [|discriminate]. injection E as <-. cbn. rewrite upd_same. auto.
    + destruct (nth_error (p_thr C) t) as [x|] eqn:Q; [|discriminate]. destruct x; try discriminate.
      destruct (p_streams C fd); [|discriminate]. destruct (_ && _); [|discriminate]. injection E as <-. cbn. rewrite upd_same.
      split; [exact H|]. split; [exact L1|]. cbn. intros t' y Y. apply nth_update_cases in Y. destruct Y as [->|Y]; [exact Logic.I|eauto].
    + destruct (nth_error (p_thr C) t) as [x|] eqn:Q; [|discriminate]. destruct x; try discriminate.
      unfold mutex_free in E. rewrite L1 in E. discriminate.
    + destruct (nth_error (p_thr C) t) as [x|] eqn:Q; [|discriminate]. apply L2 in Q. destruct x; try destruct Q; discriminate.
    + destruct (nth_error (p_thr C) t) as [x|] eqn:Q; [|discriminate]. apply L2 in Q. destruct x; try destruct Q; discriminate.
    + destruct (nth_error (p_thr C) t) as [x|] eqn:Q; [|discriminate]. apply L2 in Q. destruct x; try destruct Q; discriminate.
    + destruct (nth_error (p_thr C) t) as [x|] eqn:Q; [|discriminate]. apply L2 in Q. destruct x; try destruct Q; discriminate.
    + destruct (nth_error (p_thr C) t) as [x|] eqn:Q; [|discriminate]. apply L2 in Q. destruct x; try destruct Q; discriminate.
    + destruct (nth_error (p_thr C) t) as [x|] eqn:Q; [|discriminate]. apply L2 in Q. destruct x; try destruct Q; discriminate.
    + destruct (nth_error (p_thr C) t) as [x|] eqn:Q; [|discriminate]. destruct x; try discriminate.
      destruct (p_streams C fd); [|discriminate]. unfold mutex_free in E. rewrite L1, andb_false_r in E. discriminate.
    + destruct (nth_error (p_thr C) t) as [x|] eqn:Q; [|discriminate]. destruct x; try discriminate.
      destruct (p_streams C fd); [|discriminate]. unfold mutex_free in E. rewrite L1, andb_false_r in E. discriminate.
    + destruct (nth_error (p_thr C) t) as [x|] eqn:Q; [|discriminate]. apply L2 in Q. destruct x; try destruct Q; discriminate.
  - destruct (step_other s a s' c E Ha) as (A & B & _). split.
    + intros h Hin Hh. apply (H h); [apply B; auto|exact Hh].
    + rewrite A, Hc. auto.
Qed.

(** A process forked while another thread is inside unlock_file() or close() inherits a mutex that
    nobody will release: for as long as it lives, whatever it and the others do, it obtains no lock, gives none back and closes no stream. *)
Theorem C67_child_locked_out : forall acts s p c P s' later s'',
  exec anything init_sys acts = Some s -> s_procs s p = Some P -> ~ no_critical_section P ->
  step s (AFork p c) = Some s' -> exec anything s' later = Some s'' -> ~ In (AExit c) later ->
  (forall h, In h (s_holds s'') -> h_pid h <> c)
  /\ (forall t, step s'' (ARegister c t) = None) /\ (forall t fd len off, step s'' (AUnlock c t fd len off) = None)
  /\ (forall t fd, step s'' (AClose c t fd) = None).
Proof.
  intros acts s p c P s' later s'' E Hp Hcs Ef El Hx.
  pose proof (reach_any _ _ E) as SI. pose proof (s_live _ _ _ _ SI _ _ Hp) as I.
  assert (p_mutex P <> MFree) as Hm.
  { intros X. apply Hcs. intros t g Y. pose proof (i_mutex _ _ _ _ _ _ _ _ I _ _ Y). congruence. }
  assert (locked_out s' c) as LO.
  { destruct (C17_child_owns_nothing acts s p c s') with (C := mkProc (p_reg P) MDead (p_fds P) (p_streams P) (p_ext P) [PIdle] true) as (_ & X & _); auto.
    - cbn in Ef. rewrite Hp in Ef. destruct (s_procs s c); [discriminate|]. destruct (_ && _); [|discriminate]. injection Ef as <-.
      cbn. rewrite upd_same. destruct (p_mutex P); [congruence|reflexivity|reflexivity].
    - split; [exact X|]. cbn in Ef. rewrite Hp in Ef. destruct (s_procs s c); [discriminate|]. destruct (_ && _); [|discriminate]. injection Ef as <-.
      cbn. rewrite upd_same. cbn. destruct (p_mutex P); [congruence| |]; (split; [reflexivity|]); intros [|[|n]] x; cbn; intros Y; try discriminate;
        injection Y as <-; exact Logic.I. }
  assert (locked_out s'' c) as LO'.
  { clear - LO El Hx. revert s' LO El. induction later as [|a l IH]; cbn; intros s' LO El; [injection El as <-; exact LO|].
    destruct (step s' a) as [s1|] eqn:Es; [|discriminate]. apply (IH (fun X => Hx (or_intror X)) s1); auto.
    eapply locked_out_step; eauto. intros ->. apply Hx. now left. }
  destruct LO' as (A & B). split; [exact A|]. destruct (s_procs s'' c) as [C|] eqn:Hc; [|contradiction]. destruct B as [B1 B2].
  cbn [step]. rewrite Hc. unfold mutex_free. rewrite B1. split; [|split].
  - intros t. destruct (nth_error (p_thr C) t) as [[]|]; reflexivity.
  - intros t fd len off. destruct (nth_error (p_thr C) t) as [[]|]; try reflexivity. destruct (p_streams C fd); [|reflexivity]. now rewrite andb_false_r.
  - intros t fd. destruct (nth_error (p_thr C) t) as [[]|]; try reflexivity. destruct (p_streams C fd); [|reflexivity]. now rewrite andb_false_r.
Qed.

(** Thread 0 of process 10 is unlocking a stream when thread 1 forks process 20; thread 0 then finishes and process 10 terminates. *)
Definition run_fork_in_unlock : list action :=
  (boot 10 [3] ++ ASpawn 10 :: do_lock 10 0 3 (Some 10) 0 false
   ++ [AUnlock 10 0 3 (Some 10) 0; AFork 10 20] ++ repeat (AMicro 10 0) 3 ++ [AExit 10])%list.

(** There is one process left, it is idle, there is no lock at all, and it cannot obtain one. *)
Theorem C67_free_lock_obtained_refuted :
  ~ (forall acts s p P t fd st len off sh block,
       exec anything init_sys acts = Some s -> all_idle s ->
       s_procs s p = Some P -> (t < length (p_thr P))%nat ->
       p_streams P fd = Some st -> good_len len = true -> 0 <= off ->
       nothing_in_the_way s p fd (st_uid st) len off sh ->
       exists s', exec anything s [ALock p t fd len off sh block; ARegister p t; AKern p t] = Some s').
Proof.
  intros H.
  destruct (exec anything init_sys run_fork_in_unlock) as [s|] eqn:E; [|vm_compute in E; discriminate].
  destruct (s_procs s 20) as [P|] eqn:Hp.
  2:{ assert (match exec anything init_sys run_fork_in_unlock with Some s => s_procs s 20 | None => None end <> None) as X by (vm_compute; discriminate).
      rewrite E in X. contradiction. }
  assert (match exec anything init_sys run_fork_in_unlock with
          | Some s => match s_procs s 20 with
                      | Some P => Some (s_holds s, p_thr P, p_streams P 3, p_mutex P)
                      | None => None end
          | None => None end = Some ([], [PIdle], Some (mkStream fileA true), MDead)) as X by (vm_compute; reflexivity).
  rewrite E, Hp in X. injection X as X1 X2 X3 X4.
  destruct (H run_fork_in_unlock s 20 P 0%nat 3 (mkStream fileA true) (Some 10) 0 false false E) as (s' & Y); auto.
  - intros p Q t c HQ Hc. destruct (Z.eq_dec p 20) as [->|N].
    + rewrite Hp in HQ. injection HQ as <-. rewrite X2 in Hc. destruct t as [|[|t]]; cbn in Hc; congruence.
    + exfalso. assert (forall p, p <> 20 -> s_procs s p = None) as NP.
      { pose proof E as E'. vm_compute in E'. injection E' as <-. intros q Nq. cbn.
        destruct q as [|q|q]; auto. repeat (destruct q; auto). congruence. }
      rewrite (NP p N) in HQ. discriminate.
  - rewrite X2. cbn. lia.
  - lia.
  - intros h b Hin. rewrite X1 in Hin. destruct Hin.
  - assert (match exec anything init_sys run_fork_in_unlock with
            | Some s => exec anything s [ALock 20 0 3 (Some 10) 0 false false; ARegister 20 0; AKern 20 0]
            | None => None end = None) as W by (vm_compute; reflexivity).
    rewrite E in W. congruence.
Qed.

(** Non-vacuity: streams closed with locks, an abandoned attempt, a process killed while it held a lock; then all is idle, stream 4 of process 10
    still has a shared lock, and stream 3 of process 30 may take one too. *)
Example C67_example :
  exists acts s P st, exec anything init_sys acts = Some s /\ (25 <= length acts)%nat /\ all_idle s /\ s_procs s 30 = Some P /\ p_mutex P <> MDead
    /\ p_thr P = [PIdle] /\ p_streams P 3 = Some st /\ s_holds s = [mkHold 10 fileA (mkLock 4 true 0 (Some 10))]
    /\ nothing_in_the_way s 30 3 (st_uid st) (Some 5) 2 true.
Proof.
  set (acts := (boot 10 [3; 4] ++ boot 20 [3] ++ boot 30 [3] ++ do_lock 10 0 3 (Some 10) 0 false
    ++ [ALock 20 0 3 (Some 10) 0 false false; ARegister 20 0; AKernFail 20 0; AUnregister 20 0]
    ++ AClose 10 0 3 :: repeat (AMicro 10 0) 7 ++ do_lock 20 0 3 None 0 false ++ [AExit 20] ++ do_lock 10 0 4 (Some 10) 0 true)%list).
  assert (exists s, exec anything init_sys acts = Some s) as (s & E).
  { destruct (exec anything init_sys acts) as [s|] eqn:E; [eauto|vm_compute in E; discriminate]. }
  assert (match exec anything init_sys acts with
          | Some s => match s_procs s 30 with
                      | Some P => Some (s_holds s, p_thr P, p_streams P 3, p_mutex P)
                      | None => None end
          | None => None end = Some ([mkHold 10 fileA (mkLock 4 true 0 (Some 10))], [PIdle], Some (mkStream fileA true), MFree)) as X by (vm_compute; reflexivity).
  rewrite E in X. destruct (s_procs s 30) as [P|] eqn:Hp; [|discriminate]. injection X as X1 X2 X3 X4.
  exists acts, s, P, (mkStream fileA true). split; [exact E|]. split; [cbn; lia|].
  split. { clear - E. intros p P t c HP Hc. assert (p_thr P = [PIdle]) as Q.
    { revert HP. vm_compute in E. injection E as <-. cbn. clear. destruct p as [|p|p]; try discriminate.
      repeat (destruct p; try discriminate); intros X; injection X as <-; reflexivity. }
    rewrite Q in Hc. destruct t as [|[|t]]; cbn in Hc; congruence. }
  split; [exact Hp|]. split; [congruence|].
  split; [exact X2|]. split; [exact X3|]. split; [exact X1|].
  intros h b Hin _ _ _. rewrite X1 in Hin. destruct Hin as [<-|[]]. cbn. split; [reflexivity|]. split; [reflexivity|]. intros [Y _]. discriminate.
Qed.

Print Assumptions C67_free_lock_obtained_partial.
Print Assumptions C67_child_locked_out.
Print Assumptions C67_free_lock_obtained_refuted.
