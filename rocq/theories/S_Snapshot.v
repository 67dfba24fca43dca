(** Specification vocabulary: other processes that leave a file incomplete only while they have it locked (C91). *)
From Coq Require Import ZArith List Bool.
From Verif Require Import M_Base M_Registry M_Kernel M_World S_Files.
Import ListNotations.
Open Scope Z_scope.

(** From now on, with content [c] and locks [K], and after each of the events to come: the content of [u] is
    [complete], or a process other than [pid] has an exclusive lock on the file. *)
Fixpoint guarded (complete : list Z -> Prop) (pid : Z) (u : uid) (c : list Z) (K : klocks) (evs : list envev) : Prop :=
  (complete c \/ kept_out false pid u K)
  /\ match evs with
     | [] => True
     | ev :: evs => guarded complete pid u (match ev_data ev with Some d => d | None => c end)
                      (match ev_kern ev with Some K' => K' | None => K end) evs
     end.
