(** Model of rsfile_registries.py: the intra-process lock registry.
    No proofs here. *)
From Coq Require Import ZArith List Bool.
From Verif Require Import M_Base.
Import ListNotations.
Open Scope Z_scope.

(** One record of the per-file lock list: (handle, shared, start, end), end =
    None means infinity.  rsfile_registries.py:73-76, 140. *)
Record lockrec : Type := mkLock {
  lk_handle : Z; lk_shared : bool; lk_start : Z; lk_end : option Z }.

(** [condition, locks, data, number of threads waiting],
    rsfile_registries.py:99-104.  The condition object itself is modelled by the
    threads that wait (M_LockSys). *)
Record entry : Type := mkEntry {
  e_locks : list lockrec; e_data : list Z; e_waiting : Z }.
Definition empty_entry : entry := mkEntry [] [] 0.

(** _original_pid and _lock_registry, rsfile_registries.py:69-76. *)
Record registry : Type := mkReg { r_pid : Z; r_map : uid -> option entry }.
Definition empty_map : uid -> option entry := fun _ => None.

Definition reg_set (r : registry) (u : uid) (e : option entry) : registry :=
  mkReg (r_pid r) (upd uid_eqb (r_map r) u e).

(** rsfile_registries.py:80-88; [pid] is os.getpid(). *)
Definition check_forking (pid : Z) (r : registry) : registry :=
  if pid =? r_pid r then r else mkReg pid empty_map.

(** rsfile_registries.py:90-105 with create=True: returns (existed before, registry). *)
Definition ensure_entry_exists (r : registry) (u : uid) : bool * registry :=
  match r_map r u with
  | Some _ => (true, r)
  | None => (false, reg_set r u (Some empty_entry))
  end.

(** [new_end = (new_start + new_length) if new_length else None],
    rsfile_registries.py:112 and 154. *)
Definition range_end (start : Z) (length : option Z) : option Z :=
  match length with
  | None => None
  | Some l => if l =? 0 then None else Some (start + l)
  end.

(** The overlap test, rsfile_registries.py:124-130. *)
Definition areas_overlap (start : Z) (end_ : option Z) (new_start : Z) (new_end : option Z) : bool :=
  let max_start := Z.max start new_start in
  let min_end :=
    match end_, new_end with
    | None, _ => new_end
    | Some e, Some ne => if ne <? e then Some ne else Some e
    | Some e, None => Some e
    end in
  match min_end with
  | None => true
  | Some m => max_start <? m
  end.

(** Outcome of the loop at rsfile_registries.py:119-135. *)
Inductive scan : Type := ScanFree | ScanBusy | ScanSame.
Fixpoint scan_locks (locks : list lockrec) (handle : Z) (new_start : Z) (new_end : option Z)
    (new_shared : bool) : scan :=
  match locks with
  | [] => ScanFree
  | lk :: rest =>
      if negb (lk_handle lk =? handle) && (lk_shared lk && new_shared)
      then scan_locks rest handle new_start new_end new_shared
      else if areas_overlap (lk_start lk) (lk_end lk) new_start new_end
      then if lk_handle lk =? handle then ScanSame else ScanBusy
      else scan_locks rest handle new_start new_end new_shared
  end.

(** rsfile_registries.py:107-141.  [Ok true]: recorded; [Ok false]: busy;
    [Err ERuntime]: same area locked twice through the same handle. *)
Definition try_locking_range (r : registry) (u : uid) (handle : Z) (new_length : option Z)
    (new_start : Z) (new_shared : bool) : res bool * registry :=
  let new_end := range_end new_start new_length in
  let '(_, r1) := ensure_entry_exists r u in
  match r_map r1 u with
  | None => (Err EKey, r1)
  | Some e =>
      match scan_locks (e_locks e) handle new_start new_end new_shared with
      | ScanSame => (Err ERuntime, r1)
      | ScanBusy => (Ok false, r1)
      | ScanFree =>
          (Ok true,
           reg_set r1 u (Some (mkEntry (e_locks e ++ [mkLock handle new_shared new_start new_end])
                                       (e_data e) (e_waiting e))))
      end
  end.

Definition oz_eqb (a b : option Z) : bool :=
  match a, b with
  | None, None => true
  | Some x, Some y => x =? y
  | _, _ => false
  end.

(** [del locks[index]] for the first matching record, rsfile_registries.py:160-162. *)
Fixpoint delete_match (locks : list lockrec) (handle start : Z) (end_ : option Z)
  : option (list lockrec) :=
  match locks with
  | [] => None
  | lk :: rest =>
      if (lk_handle lk =? handle) && (lk_start lk =? start) && oz_eqb (lk_end lk) end_
      then Some rest
      else match delete_match rest handle start end_ with
           | Some rest' => Some (lk :: rest')
           | None => None
           end
  end.

(** rsfile_registries.py:143-171.  Third component: whether notify_all() was
    called on the entry's condition. *)
Definition try_unlocking_range (r : registry) (u : uid) (handle : Z) (new_length : option Z)
    (new_start : Z) : res bool * registry * bool :=
  match r_map r u with
  | None => (Ok true, r, false)
  | Some e =>
      match delete_match (e_locks e) handle new_start (range_end new_start new_length) with
      | Some locks' =>
          (Ok (match locks' with [] => true | _ => false end),
           reg_set r u (Some (mkEntry locks' (e_data e) (e_waiting e))), true)
      | None => (Err ERuntime, r, false)
      end
  end.

(** One iteration of the loop in register_file_lock, rsfile_registries.py:173-195:
    the body run while the mutex is held.  [first]: first iteration (only then
    _check_forking is called). The waiting itself is modelled in M_LockSys. *)
Definition register_once (first : bool) (pid : Z) (r : registry) (u : uid) (handle : Z)
    (length : option Z) (offset : Z) (shared : bool) : res bool * registry :=
  let r0 := if first then check_forking pid r else r in
  try_locking_range r0 u handle length offset shared.

(** Lines 188 and 190: the waiter counter around Condition.wait. KeyError if the
    entry disappeared. *)
Definition add_waiting (r : registry) (u : uid) (d : Z) : res registry :=
  match r_map r u with
  | None => Err EKey
  | Some e => Ok (reg_set r u (Some (mkEntry (e_locks e) (e_data e) (e_waiting e + d))))
  end.

(** rsfile_registries.py:197-203 *)
Definition unregister_file_lock (pid : Z) (r : registry) (u : uid) (handle : Z)
    (length : option Z) (offset : Z) : res bool * registry * bool :=
  try_unlocking_range (check_forking pid r) u handle length offset.

(** rsfile_registries.py:205-225: returns (removed locks, registry). *)
Definition remove_file_locks (pid : Z) (r : registry) (u : uid) (handle : Z)
  : list lockrec * registry :=
  let r1 := check_forking pid r in
  match r_map r1 u with
  | None => ([], r1)
  | Some e =>
      let removed := filter (fun lk => lk_handle lk =? handle) (e_locks e) in
      let remaining := filter (fun lk => negb (lk_handle lk =? handle)) (e_locks e) in
      (removed, reg_set r1 u (Some (mkEntry remaining (e_data e) (e_waiting e))))
  end.

Definition is_nil {A} (l : list A) : bool := match l with [] => true | _ => false end.

(** rsfile_registries.py:227-246 *)
Definition try_deleting_unique_id_entry (pid : Z) (r : registry) (u : uid) : bool * registry :=
  let r1 := check_forking pid r in
  match r_map r1 u with
  | None => (false, r1)
  | Some e =>
      if negb (is_nil (e_locks e)) || negb (is_nil (e_data e)) || negb (e_waiting e =? 0)
      then (false, r1)
      else (true, reg_set r1 u None)
  end.

(** rsfile_registries.py:248-255, including [assert data]. *)
Definition add_unique_id_data (pid : Z) (r : registry) (u : uid) (data : Z) : res unit * registry :=
  if data =? 0 then (Err EAssert, r)
  else
    let r1 := check_forking pid r in
    let '(_, r2) := ensure_entry_exists r1 u in
    match r_map r2 u with
    | None => (Err EKey, r2)
    | Some e => (Ok tt, reg_set r2 u (Some (mkEntry (e_locks e) (e_data e ++ [data]) (e_waiting e))))
    end.

(** rsfile_registries.py:257-271 *)
Definition remove_unique_id_data (pid : Z) (r : registry) (u : uid) : list Z * registry :=
  let r1 := check_forking pid r in
  match r_map r1 u with
  | None => ([], r1)
  | Some e => (e_data e, reg_set r1 u (Some (mkEntry (e_locks e) [] (e_waiting e))))
  end.

(** rsfile_registries.py:273-282 *)
Definition unique_id_has_locks (pid : Z) (r : registry) (u : uid) : bool * registry :=
  let r1 := check_forking pid r in
  (match r_map r1 u with
   | None => false
   | Some e => negb (is_nil (e_locks e))
   end, r1).
