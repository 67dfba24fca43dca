(** Final statements about the per-process lock table (C07-C10). *)
From Coq Require Import ZArith List Bool Lia.
From Verif Require Import M_Base M_Registry S_Locks P_Registry.
Import ListNotations.
Open Scope Z_scope.

(** [locks_of r u]: locks recorded for file [u] in registry [r] (P_Registry). *)

(** C07: a request is granted exactly when every recorded lock that has a byte in
    common with the requested area belongs to another handle and both are shared. *)
Theorem C07_granted_iff_no_common_byte : forall r u h len st sh,
  fst (try_locking_range r u h len st sh) = Ok true <->
  (forall lk b, In lk (locks_of r u) ->
     in_range (lk_start lk) (lk_end lk) b -> covers st len b ->
     lk_handle lk <> h /\ lk_shared lk = true /\ sh = true).
Proof.
  intros r u h len st sh.
  destruct (try_locking_range r u h len st sh) as [o r'] eqn:E. cbn [fst].
  destruct (try_locking_cases _ _ _ _ _ _ _ _ E) as (C & _).
  inversion C as [r1 Hfree _|r1 lk Hin (Hn & Hs & b & B1 & B2)|r1 lk Hin (Hn & b & B1 & B2)]; subst; split;
    try congruence.
  - intros _ lk b Hin Hb Hc. apply range_end_covers in Hc.
    destruct (Hfree lk Hin) as [F1 F2].
    refine (not_conflict_compat lk h st (range_end st len) sh F1 F2 _).
    exists b. auto.
  - intros X. exfalso. destruct (X lk b Hin B1) as (_ & Y & Z); [now apply range_end_covers|]. tauto.
  - intros X. exfalso. destruct (X lk b Hin B1) as (Y & _); [now apply range_end_covers|]. tauto.
Qed.

(** The area a granted lock is recorded with is the requested one. *)
Theorem C07_recorded_area : forall r u h len st sh r',
  try_locking_range r u h len st sh = (Ok true, r') ->
  exists lk, locks_of r' u = locks_of r u ++ [lk]
    /\ lk_handle lk = h /\ lk_shared lk = sh
    /\ (forall b, in_range (lk_start lk) (lk_end lk) b <-> covers st len b).
Proof.
  intros r u h len st sh r' E. destruct (try_locking_cases _ _ _ _ _ _ _ _ E) as (C & _).
  inversion C; subst. eexists; split; [eassumption|]. cbn.
  split; [reflexivity|]. split; [reflexivity|]. intros b. apply range_end_covers.
Qed.

(** C08: invariant of the table after any history (any interleaving of
    registration, unregistration, close, data and waiter bookkeeping, fork). *)
Theorem C08_table_invariant : forall pid0 ops u i j a b,
  let r := snd (fold_left run_rop ops (pid0, mkReg pid0 empty_map)) in
  i <> j ->
  nth_error (locks_of r u) i = Some a -> nth_error (locks_of r u) j = Some b ->
  (exists byte, in_range (lk_start a) (lk_end a) byte /\ in_range (lk_start b) (lk_end b) byte) ->
  lk_handle a <> lk_handle b /\ lk_shared a = true /\ lk_shared b = true.
Proof.
  intros pid0 ops u i j a b r Hij Ha Hb Hs.
  exact (run_sound ops pid0 _ (empty_reg_sound pid0) u i j a b Hij Ha Hb Hs).
Qed.

(** C09: unlocking removes exactly the lock with the given owner, start and end. *)
Theorem C09_unlock_exact : forall r u h len st x r' n,
  try_unlocking_range r u h len st = (Ok x, r', n) -> r_map r u <> None ->
  exists l1 lk l2,
    locks_of r u = l1 ++ lk :: l2 /\ locks_of r' u = l1 ++ l2
    /\ lk_handle lk = h /\ lk_start lk = st /\ lk_end lk = range_end st len
    /\ (x = true <-> l1 ++ l2 = []) /\ n = true
    /\ (forall v, v <> u -> r_map r' v = r_map r v)
    /\ data_of r' u = data_of r u /\ waiting_of r' u = waiting_of r u.
Proof.
  intros r u h len st x r' n. unfold try_unlocking_range.
  destruct (r_map r u) as [e|] eqn:E; [intros H _|intros _ H; congruence].
  destruct (delete_match (e_locks e) h st (range_end st len)) as [l'|] eqn:Ed; [|discriminate].
  injection H as <- <- <-.
  destruct (delete_match_split _ _ _ _ _ Ed) as (l1 & lk & l2 & Eq & -> & A & B & C & D).
  exists l1, lk, l2. unfold locks_of, data_of, waiting_of. rewrite reg_set_eq, E. cbn [e_locks e_data e_waiting].
  repeat split; auto.
  - destruct (l1 ++ l2); congruence.
  - intros ->. reflexivity.
  - intros v Hv. rewrite reg_set_neq; auto.
Qed.

(** C09: unlocking something not owned raises and changes nothing (when the file
    has an entry in the table). *)
Theorem C09_unlock_not_owned_partial : forall r u h len st,
  r_map r u <> None ->
  (forall lk, In lk (locks_of r u) ->
     ~ (lk_handle lk = h /\ lk_start lk = st /\ lk_end lk = range_end st len)) ->
  try_unlocking_range r u h len st = (Err ERuntime, r, false).
Proof.
  intros r u h len st He Hno. unfold try_unlocking_range.
  destruct (r_map r u) as [e|] eqn:E; [|congruence].
  destruct (delete_match (e_locks e) h st (range_end st len)) as [l'|] eqn:Ed; auto.
  destruct (delete_match_split _ _ _ _ _ Ed) as (l1 & lk & l2 & Eq & _ & A & B & C & _).
  exfalso. apply (Hno lk); auto. unfold locks_of. rewrite E, Eq. apply in_or_app. right. now left.
Qed.

(** C09 in full is false: with no entry for the file, unlocking an area that was
    never locked reports success (rsfile_registries.py:151-152) instead of raising. *)
Theorem C09_unlock_not_owned_refuted :
  exists r u h len st, locks_of r u = [] /\
    fst (fst (unregister_file_lock (r_pid r) r u h len st)) = Ok true.
Proof. exists (mkReg 1 empty_map), (1, 2), 3, (Some 10), 0. split; reflexivity. Qed.

(** C10: a handle never gets a second lock on a byte it already holds. *)
Theorem C10_never_granted_twice : forall r u h len st sh lk b,
  In lk (locks_of r u) -> lk_handle lk = h ->
  in_range (lk_start lk) (lk_end lk) b -> covers st len b ->
  fst (try_locking_range r u h len st sh) <> Ok true.
Proof.
  intros r u h len st sh lk b Hin Hh Hb Hc H.
  pose proof (proj1 (C07_granted_iff_no_common_byte _ _ _ _ _ _) H) as H'. clear H. rename H' into H.
  destruct (H lk b Hin Hb Hc) as (X & _). contradiction.
Qed.

(** C10: it raises RuntimeError and leaves all locks unchanged, provided no
    conflicting lock of another handle was recorded before its own. *)
Theorem C10_double_lock_raises_partial : forall r u h len st sh l1 lk l2 b,
  locks_of r u = l1 ++ lk :: l2 -> lk_handle lk = h ->
  in_range (lk_start lk) (lk_end lk) b -> covers st len b ->
  (forall x, In x l1 -> lk_handle x <> h -> lk_shared x = true /\ sh = true
     \/ ~ exists b', in_range (lk_start x) (lk_end x) b' /\ covers st len b') ->
  exists r', try_locking_range r u h len st sh = (Err ERuntime, r') /\ r' = r.
Proof.
  intros r u h len st sh l1 lk l2 b EL Hh Hb Hc Hno.
  unfold try_locking_range, ensure_entry_exists.
  unfold locks_of in EL. destruct (r_map r u) as [e|] eqn:E; [|destruct l1; discriminate].
  rewrite E, EL. exists r. split; auto.
  rewrite scan_same_first; auto.
  - intros x Hx (H1 & H2 & b' & B1 & B2). destruct (Hno x Hx H1) as [Hs|Hn]; [tauto|].
    apply Hn. exists b'. split; auto. now apply range_end_covers.
  - split; auto. exists b. split; auto. now apply range_end_covers.
Qed.

(** C10 in full is false: handle 2 already holds a shared lock; when handle 1 took
    its own shared lock earlier, asking through handle 2 for an exclusive lock on
    the same area does not raise: it is reported as merely busy (and the caller
    keeps waiting on a lock that can never be granted while it holds its own). *)
Theorem C10_double_lock_raises_refuted :
  exists r u h len st sh lk, In lk (locks_of r u) /\ lk_handle lk = h
    /\ (exists b, in_range (lk_start lk) (lk_end lk) b /\ covers st len b)
    /\ reg_sound r
    /\ fst (try_locking_range r u h len st sh) = Ok false.
Proof.
  set (ops := [RRegister (1,2) 1 (Some 10) 0 true; RRegister (1,2) 2 (Some 10) 0 true]).
  exists (snd (fold_left run_rop ops (7, mkReg 7 empty_map))), (1,2), 2, (Some 10), 0, false,
    (mkLock 2 true 0 (Some 10)).
  split; [vm_compute; auto|]. split; [reflexivity|].
  split; [exists 5; unfold in_range, covers; cbn; lia|].
  split; [apply run_sound, empty_reg_sound|reflexivity].
Qed.

(** Non-vacuity. *)
Definition ex_reg : registry :=
  snd (fold_left run_rop
    [RRegister (1,2) 3 (Some 10) 0 false; RRegister (1,2) 3 (Some 10) 10 true;
     RRegister (1,2) 4 (Some 5) 12 true; RRegister (1,2) 4 None 30 false] (7, mkReg 7 empty_map)).
Example C08_ex : locks_of ex_reg (1,2) =
  [mkLock 3 false 0 (Some 10); mkLock 3 true 10 (Some 20); mkLock 4 true 12 (Some 17); mkLock 4 false 30 None].
Proof. reflexivity. Qed.
Example C07_ex_busy : fst (try_locking_range ex_reg (1,2) 5 (Some 1) 9 true) = Ok false
  /\ fst (try_locking_range ex_reg (1,2) 5 (Some 10) 20 false) = Ok true
  /\ fst (try_locking_range ex_reg (1,2) 3 None 15 true) = Err ERuntime.
Proof. repeat split; reflexivity. Qed.
Example C09_ex : fst (fst (try_unlocking_range ex_reg (1,2) 3 (Some 10) 10)) = Ok false
  /\ fst (fst (try_unlocking_range ex_reg (1,2) 3 (Some 9) 10)) = Err ERuntime.
Proof. split; reflexivity. Qed.

Print Assumptions C07_granted_iff_no_common_byte.
Print Assumptions C07_recorded_area.
Print Assumptions C08_table_invariant.
Print Assumptions C09_unlock_exact.
Print Assumptions C09_unlock_not_owned_partial.
Print Assumptions C09_unlock_not_owned_refuted.
Print Assumptions C10_never_granted_twice.
Print Assumptions C10_double_lock_raises_partial.
Print Assumptions C10_double_lock_raises_refuted.
