(** Vocabulary of C89: questions about the file behind a stream. *)
From Coq Require Import ZArith List Bool.
From Verif Require Import M_Base M_World M_WinHandles M_WinInfo S_WinHandles.
Import ListNotations.
Open Scope Z_scope.

Inductive query : Type := QUid | QTimes.
Definition run_query (info : wtarget -> hinfo) (be : backend) (q : query) (z : wsi) (s : wsys) : res (Z * Z) * wsi * wsys :=
  match q with QUid => win_unique_id info be z s | QTimes => win_times info be z s end.
Fixpoint run_queries (info : wtarget -> hinfo) (be : backend) (qs : list query) (z : wsi) (s : wsys) : list (res (Z * Z)) * wsi * wsys :=
  match qs with
  | [] => ([], z, s)
  | q :: r => let '(o, z1, s1) := run_query info be q z s in
              let '(os, z2, s2) := run_queries info be r z1 s1 in (o :: os, z2, s2)
  end.
(** The two tables of the process, and the files. *)
Record same_tables (s s' : wsys) : Prop := mkSameTables {
  st_names : ws_names s' = ws_names s; st_files : ws_files s' = ws_files s;
  st_handles : ws_handles s' = ws_handles s; st_crt : ws_crt s' = ws_crt s }.
(** Calls of times() that succeeded. *)
Fixpoint times_told (qs : list query) (outs : list (res (Z * Z))) : Z :=
  match qs, outs with
  | QTimes :: qs, Ok _ :: outs => 1 + times_told qs outs
  | _ :: qs, _ :: outs => times_told qs outs
  | _, _ => 0
  end.
