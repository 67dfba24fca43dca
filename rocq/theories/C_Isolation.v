(** C66: what a stream reads while it holds a lock is not changed by the others.
    C67: a lock that nobody holds can be obtained. *)
From Coq Require Import ZArith List Bool Lia ZifyBool.
From Verif Require Import M_Base M_Registry M_Kernel M_LockSys S_Locks S_LockSys P_Registry P_RegEff P_Kernel P_LockInv P_LockStep
  P_LockMicro P_LockMain P_LockExtra C_LockSys S_Isolation.
Import ListNotations.
Open Scope Z_scope.

(** The steps of the lock system in an execution. *)
Fixpoint sys_part (l : list event) : list action :=
  match l with [] => [] | ESys a :: r => a :: sys_part r | EWrite _ _ _ _ :: r => sys_part r end.

Lemma goes_exec ok fs l fs' : goes ok fs l fs' -> exec ok (fs_sys fs) (sys_part l) = Some (fs_sys fs').
Proof.
  induction 1 as [fs|fs e fs1 l fs2 F E G IH]; [reflexivity|].
  destruct e as [a|p fd b v]; cbn in *.
  - rewrite F. destruct (step (fs_sys fs) a) as [s'|]; [|discriminate]. injection E as <-. exact IH.
  - destruct (file_of (fs_sys fs) p fd); [|discriminate]. injection E as <-. exact IH.
Qed.
Lemma exec_app ok s l1 l2 s1 s2 : exec ok s l1 = Some s1 -> exec ok s1 l2 = Some s2 -> exec ok s (l1 ++ l2)%list = Some s2.
Proof.
  revert s. induction l1 as [|a l IH]; cbn; intros s E1 E2; [congruence|].
  destruct (ok s a); [|discriminate]. destruct (step s a); [|discriminate]. eauto.
Qed.
Lemma held_goes ok h fs l fs' : held_during ok h fs l fs' -> goes ok fs l fs'.
Proof. induction 1; econstructor; eauto. Qed.

(** The writer of a byte under [h] is the owner of [h]. *)
Definition owner_only (ok : sys -> action -> bool) (h : hold) : Prop :=
  forall acts s p fd u b, exec ok init_sys acts = Some s -> In h (s_holds s) -> h_uid h = u ->
    in_range (lk_start (h_lock h)) (lk_end (h_lock h)) b -> holds_byte s p fd u false b ->
    lk_shared (h_lock h) = false /\ p = h_pid h /\ fd = lk_handle (h_lock h).

Lemma isolated ok h (Own : owner_only ok h) b :
  in_range (lk_start (h_lock h)) (lk_end (h_lock h)) b ->
  forall fs l fs', held_during ok h fs l fs' ->
  (exists acts, exec ok init_sys acts = Some (fs_sys fs)) ->
  fs_bytes fs' (h_uid h) b = own_writes h b l (fs_bytes fs (h_uid h) b)
  /\ (lk_shared (h_lock h) = true -> fs_bytes fs' (h_uid h) b = fs_bytes fs (h_uid h) b).
Proof.
  intros Hb fs l fs' HD. induction HD as [fs Hin|fs e fs1 l fs2 Hin F E HD IH]; intros (acts & R); [cbn; auto|].
  destruct e as [a|p fd b' v]; cbn in F, E.
  - destruct (step (fs_sys fs) a) as [s'|] eqn:Es; [|discriminate]. injection E as <-. cbn [fs_bytes] in *.
    apply IH. exists (acts ++ [a])%list. eapply exec_app; [exact R|]. cbn. now rewrite F, Es.
  - destruct (file_of (fs_sys fs) p fd) as [u|] eqn:Ef; [|discriminate]. injection E as <-.
    destruct IH as [I1 I2]; [exists acts; exact R|]. cbn [fs_bytes] in *. cbn [own_writes].
    specialize (F u eq_refl). unfold store in *.
    destruct (uid_eqb (h_uid h) u && (b =? b')) eqn:Q.
    + apply andb_true_iff in Q. destruct Q as [Q1 Q2]. apply uid_eqb_eq in Q1. apply Z.eqb_eq in Q2. subst b'.
      destruct (Own acts _ p fd u b R Hin Q1 Hb F) as (S & -> & ->).
      rewrite I1. split; [|congruence]. now rewrite !Z.eqb_refl.
    + rewrite I1. split; [|exact (fun S => eq_trans (eq_sym I1) (I2 S))].
      destruct ((p =? h_pid h) && (fd =? lk_handle (h_lock h)) && (b' =? b)) eqn:Q'; [|reflexivity]. exfalso.
      repeat rewrite andb_true_iff in Q'. rewrite !Z.eqb_eq in Q'. destruct Q' as [[-> ->] ->].
      rewrite Z.eqb_refl, andb_true_r in Q.
      (* the stream of h is a stream of the file of h *)
      destruct F as (h2 & A1 & A2 & A3 & A4 & A5 & A6).
      destruct (hold_alive false false false (fs_sys fs)) with (h := h) as (P & HP & I); auto.
      { eapply reach_any, exec_weaken; eauto. }
      destruct h as [ph uh lk]. cbn in *. destruct (i_hold _ _ _ _ _ _ _ _ I uh lk Hin) as [A _].
      destruct (i_own _ _ _ _ _ _ _ _ I uh lk A) as (st & S1 & S2).
      unfold file_of in Ef. rewrite HP, S1 in Ef. injection Ef as <-. rewrite S2 in Q.
      now rewrite uid_eqb_refl in Q.
Qed.

Lemma in_overlap h1 h2 b : h_uid h1 = h_uid h2 -> in_range (lk_start (h_lock h1)) (lk_end (h_lock h1)) b ->
  in_range (lk_start (h_lock h2)) (lk_end (h_lock h2)) b -> holds_overlap h1 h2.
Proof. intros A B C. split; [exact A|]. exists b. auto. Qed.

Lemma owner_exclusive h : lk_shared (h_lock h) = false -> owner_only anything h.
Proof.
  intros S acts s p fd u b E Hin Hu Hb (h2 & A1 & A2 & A3 & A4 & A5 & A6). split; [exact S|].
  apply In_nth_error in Hin, A1. destruct Hin as (i & Hi), A1 as (j & Hj).
  destruct (Nat.eq_dec i j) as [->|N]; [split; congruence|]. exfalso.
  apply (C11_exclusive_exclusive acts s i j h h2 E N Hi Hj S A5). eapply in_overlap; eauto; congruence.
Qed.
Lemma owner_strict h : owner_only no_shared_overlap h.
Proof.
  intros acts s p fd u b E Hin Hu Hb (h2 & A1 & A2 & A3 & A4 & A5 & A6).
  apply In_nth_error in Hin, A1. destruct Hin as (i & Hi), A1 as (j & Hj).
  destruct (Nat.eq_dec i j) as [->|N]; [split; [|split]; congruence|]. exfalso.
  destruct (C12_shared_vs_exclusive_partial acts s i j h h2 E N Hi Hj) as (_ & X & _).
  - eapply in_overlap; eauto; congruence.
  - congruence.
Qed.

(** ** C66 *)
(** While a stream holds an exclusive lock, a byte of the area is what the stream itself last
    wrote there, or what it was at the beginning: in every execution, whatever the other streams,
    threads and processes do meanwhile, provided that bytes are only written under exclusive locks. *)
Theorem C66_exclusive_isolated : forall files before fs during fs' h b,
  goes anything (start files) before fs -> held_during anything h fs during fs' ->
  lk_shared (h_lock h) = false -> in_range (lk_start (h_lock h)) (lk_end (h_lock h)) b ->
  fs_bytes fs' (h_uid h) b = own_writes h b during (fs_bytes fs (h_uid h) b).
Proof.
  intros files before fs during fs' h b G HD S Hb.
  apply (isolated anything h (owner_exclusive h S) b Hb fs during fs' HD).
  exists (sys_part before). apply (goes_exec _ _ _ _ G).
Qed.

(** While a stream holds a shared lock, the bytes of the area do not change, provided moreover that no
    process takes overlapping shared locks through two of its streams (see C12). *)
Theorem C66_shared_isolated_partial : forall files before fs during fs' h b,
  goes no_shared_overlap (start files) before fs -> held_during no_shared_overlap h fs during fs' ->
  lk_shared (h_lock h) = true -> in_range (lk_start (h_lock h)) (lk_end (h_lock h)) b ->
  fs_bytes fs' (h_uid h) b = fs_bytes fs (h_uid h) b.
Proof.
  intros files before fs during fs' h b G HD S Hb.
  apply (isolated no_shared_overlap h (owner_strict h) b Hb fs during fs' HD); auto.
  exists (sys_part before). apply (goes_exec _ _ _ _ G).
Qed.

(** An execution as a function, to compute with. *)
Fixpoint erun (fs : fsys) (l : list event) : option fsys :=
  match l with [] => Some fs | e :: r => match estep fs e with Some fs1 => erun fs1 r | None => None end end.
Definition holds_byteb (s : sys) (p fd : Z) (u : uid) (b : Z) : bool :=
  existsb (fun h => (h_pid h =? p) && uid_eqb (h_uid h) u && (lk_handle (h_lock h) =? fd) && negb (lk_shared (h_lock h))
     && (lk_start (h_lock h) <=? b) && match lk_end (h_lock h) with None => true | Some e => b <? e end) (s_holds s).
Definition fairb (ok : sys -> action -> bool) (fs : fsys) (e : event) : bool :=
  match e with
  | ESys a => ok (fs_sys fs) a
  | EWrite p fd b v => match file_of (fs_sys fs) p fd with Some u => holds_byteb (fs_sys fs) p fd u b | None => false end
  end.
Fixpoint frun (ok : sys -> action -> bool) (fs : fsys) (l : list event) : option fsys :=
  match l with [] => Some fs | e :: r => if fairb ok fs e then match estep fs e with Some fs1 => frun ok fs1 r | None => None end else None end.
Lemma fairb_ok ok fs e : fairb ok fs e = true -> fair_play ok fs e.
Proof.
  destruct e as [a|p fd b v]; cbn; auto. intros H u Hu. rewrite Hu in H. apply existsb_exists in H.
  destruct H as (h & A & B). repeat rewrite andb_true_iff in B. destruct B as [[[[[B1 B2] B3] B4] B5] B6].
  exists h. rewrite !Z.eqb_eq in *. apply uid_eqb_eq in B2. apply negb_true_iff in B4. repeat split; auto; [lia|].
  destruct (lk_end (h_lock h)); [lia|exact I].
Qed.
Lemma frun_goes ok l : forall fs fs', frun ok fs l = Some fs' -> goes ok fs l fs'.
Proof.
  induction l as [|e r IH]; cbn; intros fs fs' H; [injection H as <-; constructor|].
  destruct (fairb ok fs e) eqn:F; [|discriminate]. destruct (estep fs e) as [fs1|] eqn:E; [|discriminate].
  econstructor; eauto. now apply fairb_ok.
Qed.
Definition hold_eqb (a b : hold) : bool :=
  (h_pid a =? h_pid b) && uid_eqb (h_uid a) (h_uid b) && (lk_handle (h_lock a) =? lk_handle (h_lock b))
  && Bool.eqb (lk_shared (h_lock a)) (lk_shared (h_lock b)) && (lk_start (h_lock a) =? lk_start (h_lock b))
  && oz_eqb (lk_end (h_lock a)) (lk_end (h_lock b)).
Fixpoint hrun (ok : sys -> action -> bool) (h : hold) (fs : fsys) (l : list event) : option fsys :=
  if existsb (hold_eqb h) (s_holds (fs_sys fs)) then
    match l with [] => Some fs | e :: r => if fairb ok fs e then match estep fs e with Some fs1 => hrun ok h fs1 r | None => None end else None end
  else None.
Lemma hold_eqb_in h l : existsb (hold_eqb h) l = true -> In h l.
Proof.
  intros H. apply existsb_exists in H. destruct H as (x & A & B). replace h with x; auto.
  unfold hold_eqb in B. repeat rewrite andb_true_iff in B. destruct B as [[[[[B1 B2] B3] B4] B5] B6].
  rewrite !Z.eqb_eq in *. apply uid_eqb_eq in B2. apply eqb_prop in B4.
  destruct h as [p u [hh sh st en]], x as [p' u' [hh' sh' st' en']]. cbn in *. subst.
  assert (en = en') as ->; [|reflexivity].
  destruct en, en'; cbn in B6; try discriminate; auto. apply Z.eqb_eq in B6. now subst.
Qed.
Lemma hrun_held ok h l : forall fs fs', hrun ok h fs l = Some fs' -> held_during ok h fs l fs'.
Proof.
  induction l as [|e r IH]; cbn; intros fs fs' H; destruct (existsb (hold_eqb h) (s_holds (fs_sys fs))) eqn:Q; try discriminate;
    apply hold_eqb_in in Q.
  - injection H as <-. now constructor.
  - destruct (fairb ok fs e) eqn:F; [|discriminate]. destruct (estep fs e) as [fs1|] eqn:E; [|discriminate].
    econstructor; eauto. now apply fairb_ok.
Qed.

(** Process 10 has two streams with shared locks and releases one of the locks; process 20
    obtains an exclusive lock and writes: the byte changes under the other shared lock. *)
Theorem C66_shared_isolated_refuted :
  ~ (forall files before fs during fs' h b,
       goes anything (start files) before fs -> held_during anything h fs during fs' ->
       lk_shared (h_lock h) = true -> in_range (lk_start (h_lock h)) (lk_end (h_lock h)) b ->
       fs_bytes fs' (h_uid h) b = fs_bytes fs (h_uid h) b).
Proof.
  intros H.
  set (before := map ESys (boot 10 [3; 4] ++ boot 20 [3] ++ do_lock 10 0 3 (Some 10) 0 true ++ do_lock 10 0 4 (Some 10) 0 true)%list).
  set (during := (map ESys (AUnlock 10 0 3 (Some 10) 0 :: repeat (AMicro 10 0) 3 ++ do_lock 20 0 3 (Some 10) 0 false)
                  ++ [EWrite 20 3 5 99])%list).
  set (h := mkHold 10 fileA (mkLock 4 true 0 (Some 10))).
  destruct (frun anything (start (fun _ _ => 0)) before) as [fs|] eqn:E1; [|vm_compute in E1; discriminate].
  assert (match frun anything (start (fun _ _ => 0)) before with
          | Some fs => match hrun anything h fs during with
                       | Some fs' => Some (fs_bytes fs fileA 5, fs_bytes fs' fileA 5)
                       | None => None
                       end
          | None => None
          end = Some (0, 99)) as X by (vm_compute; reflexivity).
  rewrite E1 in X. destruct (hrun anything h fs during) as [fs'|] eqn:E2; [|discriminate]. injection X as X1 X2.
  pose proof (H _ _ _ _ _ h 5 (frun_goes _ _ _ _ E1) (hrun_held _ _ _ _ _ E2) eq_refl) as Y.
  change (h_uid h) with fileA in Y. rewrite X1, X2 in Y. discriminate Y. cbn. unfold in_range. lia.
Qed.

(** Non-vacuity: two processes take turns; the writes of process 20 come before and after the section of process 10,
    which writes twice in it while process 20 tries in vain to get its lock. *)
Example C66_example :
  exists before fs during fs' h,
    goes anything (start (fun _ _ => 0)) before fs /\ held_during anything h fs during fs'
    /\ goes no_shared_overlap (start (fun _ _ => 0)) before fs
    /\ lk_shared (h_lock h) = false /\ in_range (lk_start (h_lock h)) (lk_end (h_lock h)) 5
    /\ fs_bytes fs (h_uid h) 5 = 7 /\ fs_bytes fs' (h_uid h) 5 = 9 /\ length during = 6%nat.
Proof.
  set (before := (map ESys (boot 10 [3] ++ boot 20 [3] ++ do_lock 20 0 3 (Some 10) 0 false) ++ [EWrite 20 3 5 7]
     ++ map ESys (AUnlock 20 0 3 (Some 10) 0 :: repeat (AMicro 20 0) 3 ++ do_lock 10 0 3 (Some 10) 0 false))%list).
  set (during := [EWrite 10 3 5 8; ESys (ALock 20 0 3 (Some 10) 0 false false); ESys (ARegister 20 0); EWrite 10 3 5 9;
     ESys (AKernFail 20 0); ESys (AUnregister 20 0)]).
  set (h := mkHold 10 fileA (mkLock 3 false 0 (Some 10))).
  destruct (frun anything (start (fun _ _ => 0)) before) as [fs|] eqn:E1; [|vm_compute in E1; discriminate].
  assert (match frun anything (start (fun _ _ => 0)) before with
          | Some fs => match hrun anything h fs during with
                       | Some fs' => Some (fs_bytes fs fileA 5, fs_bytes fs' fileA 5)
                       | None => None
                       end
          | None => None
          end = Some (7, 9)) as X by (vm_compute; reflexivity).
  rewrite E1 in X. destruct (hrun anything h fs during) as [fs'|] eqn:E2; [|discriminate]. injection X as X1 X2.
  exists before, fs, during, fs', h. split; [apply frun_goes, E1|]. split; [apply hrun_held, E2|].
  split. { apply frun_goes. rewrite <- E1. vm_compute. reflexivity. }
  split; [reflexivity|]. split. { cbn. unfold in_range. lia. }
  split; [exact X1|]. split; [exact X2|reflexivity].
Qed.

Print Assumptions C66_exclusive_isolated.
Print Assumptions C66_shared_isolated_partial.
Print Assumptions C66_shared_isolated_refuted.
