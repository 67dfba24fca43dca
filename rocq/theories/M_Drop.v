(** Streams that the program forgets without closing them: which objects refer to which, when CPython destroys them (reference
    counts, then the cyclic garbage collector), and the destructors they run.  rsfile_streams.py:150-203, rsfile_factories.py:
    277-341, IOBase.__del__ of pyio (_pyio_py312_backup.py:407-430), which rsfileio_abstract.py:729 insists on.  No proofs here. *)
From Coq Require Import ZArith Ascii String List Bool.
From Verif Require Import M_Base M_World M_Raw M_Buffered M_Text M_Wrapper.
Import ListNotations.

(** The objects made by rsopen(), and the functions that RSThreadSafeWrapper.__getattr__ makes, rsfile_streams.py:180-183. *)
Inductive obj : Type := OWrapper | OProxy (method : string) | OText | OBuffered | ORaw.
Definition obj_eqb (a b : obj) : bool :=
  match a, b with
  | OWrapper, OWrapper | OText, OText | OBuffered, OBuffered | ORaw, ORaw => true
  | OProxy m, OProxy n => String.eqb m n
  | _, _ => false
  end.

(** buffering=0; binary; text: rsfile_factories.py:311-337 *)
Inductive outer : Type := OutRaw | OutBuffered | OutText.
Definition stream_of (x : outer) : obj := match x with OutRaw => ORaw | OutBuffered => OBuffered | OutText => OText end.
(** [h_wrapped]: thread_safe; [h_cached]: names for which line 183 has run. *)
Record heap : Type := mkHeap { h_outer : outer; h_wrapped : bool; h_cached : list string }.

(** In order of creation. *)
Definition streams (x : outer) : list obj :=
  match x with OutRaw => [ORaw] | OutBuffered => [ORaw; OBuffered] | OutText => [ORaw; OBuffered; OText] end.
Definition objects (h : heap) : list obj :=
  streams (h_outer h) ++ (if h_wrapped h then OWrapper :: map OProxy (rev (h_cached h)) else []).

(** References: wrapped_stream (line 159) and the attributes set by line 183; the closure of _method_proxy holds
    self (line 181); _buffer (pyio:2030); _raw (pyio:786). *)
Definition refs (h : heap) (o : obj) : list obj :=
  match o with
  | OWrapper => stream_of (h_outer h) :: map OProxy (h_cached h)
  | OProxy _ => [OWrapper]
  | OText => [OBuffered]
  | OBuffered => [ORaw]
  | ORaw => []
  end.

(** * Reference counts *)
(** [root o]: the program itself holds a reference to [o]. *)
Definition referred (h : heap) (l : list obj) (o : obj) : bool := existsb (fun p => existsb (obj_eqb o) (refs h p)) l.
(** Objects whose count is zero are destroyed, which lowers the counts of others; the objects destroyed in order,
    and those that remain. *)
Fixpoint count_down (h : heap) (root : obj -> bool) (fuel : nat) (l : list obj) : list obj * list obj :=
  match fuel with
  | O => ([], l)
  | S k =>
      match find (fun o => negb (root o) && negb (referred h l o)) l with
      | None => ([], l)
      | Some o => let '(d, r) := count_down h root k (filter (fun p => negb (obj_eqb o p)) l) in (o :: d, r)
      end
  end.
Definition by_count (h : heap) (root : obj -> bool) : list obj * list obj := count_down h root (length (objects h)) (objects h).

(** * The cyclic garbage collector *)
Fixpoint reachable (h : heap) (l : list obj) (fuel : nat) (seen : list obj) : list obj :=
  match fuel with
  | O => seen
  | S k => reachable h l k (filter (fun o => existsb (obj_eqb o) seen || referred h seen o) l)
  end.
(** What it finds among [l], in order of creation.  CPython runs the destructors in this order. *)
Definition garbage (h : heap) (root : obj -> bool) (l : list obj) : list obj :=
  let r := reachable h l (length l) (filter root l) in filter (fun o => negb (existsb (obj_eqb o) r)) l.

(** * Destructors *)
(** IOBase.__del__, pyio:407-430: close() unless closed, exceptions are dropped (or only printed). *)
Definition quietly (m : T unit) : T unit :=
  fun t => let '(r, t') := m t in
           (match r with Err EHang => Err EHang | Err EFuel => Err EFuel | _ => Ok tt end, t').
Definition destructor (c : tconf) (o : obj) : T unit :=
  match o with
  | OText => quietly (t_close c)
  | OBuffered => quietly (on_b (b_close (tc_kind c)))
  | ORaw => quietly (on_b raw_close_b)
  | OWrapper | OProxy _ => ret tt          (* no __del__ *)
  end.
Fixpoint destroy (c : tconf) (l : list obj) : T unit :=
  match l with [] => ret tt | o :: r => destructor c o ;; destroy c r end.

(** The program drops its references but those of [root]. *)
Definition forget (c : tconf) (h : heap) (root : obj -> bool) : T unit := destroy c (fst (by_count h root)).
(** Later the collector runs; [order] arranges what it found. *)
Definition collect (c : tconf) (h : heap) (root : obj -> bool) (order : list obj -> list obj) : T unit :=
  destroy c (order (garbage h root (snd (by_count h root)))).
