(** Model of IncrementalNewlineDecoder, _pyio_py312_backup.py:1888-1970, on the text given by the decoder it wraps.
    Characters are code points.  No proofs here. *)
From Coq Require Import ZArith List Bool.
From Verif Require Import M_Base.
Import ListNotations.
Open Scope Z_scope.

Definition LF : Z := 10.
Definition CR : Z := 13.

(** s.count(c) for one character. *)
Fixpoint count_char (c : Z) (s : list Z) : Z :=
  match s with
  | [] => 0
  | x :: r => (if x =? c then 1 else 0) + count_char c r
  end.
(** s.count("\r\n") *)
Fixpoint count_crlf (s : list Z) : Z :=
  match s with
  | [] => 0
  | x :: r => match r with
              | y :: t => if (x =? CR) && (y =? LF) then 1 + count_crlf t else count_crlf r
              | [] => 0
              end
  end.
(** s.replace("\r\n", "\n") *)
Fixpoint replace_crlf (s : list Z) : list Z :=
  match s with
  | [] => []
  | x :: r => match r with
              | y :: t => if (x =? CR) && (y =? LF) then LF :: replace_crlf t else x :: replace_crlf r
              | [] => [x]
              end
  end.
(** s.replace(c, t) for one character c. *)
Definition replace_char (c : Z) (t : list Z) (s : list Z) : list Z :=
  flat_map (fun x => if x =? c then t else [x]) s.

(** [self.seennl] as three flags, [self.pendingcr]; [self.translate] is a parameter. *)
Record nlstate : Type := mkNl { nl_lf : bool; nl_cr : bool; nl_crlf : bool; nl_pending : bool }.
(** __init__ (lines 1895-1900) and reset (lines 1950-1954) *)
Definition nl_init : nlstate := mkNl false false false false.

(** s.endswith("\r") *)
Fixpoint ends_cr (s : list Z) : bool :=
  match s with
  | [] => false
  | x :: r => match r with [] => x =? CR | _ => ends_cr r end
  end.

(** decode, lines 1902-1934, from line 1908 on: [output] is what the inner decoder gave (the input itself when there is
    no inner decoder). *)
Definition nl_decode (translate : bool) (output : list Z) (final : bool) (s : nlstate) : list Z * nlstate :=
  let '(output, pending) :=
    if nl_pending s && (negb (match output with [] => true | _ => false end) || final)
    then (CR :: output, false) else (output, nl_pending s) in
  let '(output, pending) :=
    if ends_cr output && negb final then (removelast output, true) else (output, pending) in
  let crlf := count_crlf output in
  let cr := count_char CR output - crlf in
  let lf := count_char LF output - crlf in
  let s' := mkNl (nl_lf s || negb (lf =? 0)) (nl_cr s || negb (cr =? 0)) (nl_crlf s || negb (crlf =? 0)) pending in
  let output :=
    if translate then
      let o1 := if negb (crlf =? 0) then replace_crlf output else output in
      if negb (cr =? 0) then replace_char CR [LF] o1 else o1
    else output in
  (output, s').

(** Several calls, one per chunk; the last one with final=True. *)
Fixpoint nl_run (translate : bool) (chunks : list (list Z)) (s : nlstate) : list (list Z) * nlstate :=
  match chunks with
  | [] => ([], s)
  | [c] => let '(o, s') := nl_decode translate c true s in ([o], s')
  | c :: r => let '(o, s') := nl_decode translate c false s in
              let '(os, s'') := nl_run translate r s' in (o :: os, s'')
  end.
