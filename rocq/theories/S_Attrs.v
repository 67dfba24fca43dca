(** Specification vocabulary: the documented interface of the streams (C97), from rsiobase.py, a class that is "only used to
    document" (rsiobase.py:4-13, listed in doc/streams.rst:8). *)
From Coq Require Import String List Bool.
Import ListNotations.
Open Scope string_scope.

(** The methods with their parameters, rsiobase.py:29-246 *)
Definition documented_methods : list (string * list string) :=
  [("truncate", ["size"; "zero_fill"]); ("flush", []); ("close", []); ("size", []); ("sync", ["metadata"; "full_flush"]);
   ("times", []); ("unique_id", []); ("fileno", []); ("handle", []);
   ("lock_file", ["timeout"; "length"; "offset"; "whence"; "shared"]); ("unlock_file", ["length"; "offset"; "whence"])].
(** The attributes, rsiobase.py:248-277 *)
Definition documented_attributes : list string := ["mode"; "origin"; "name"].
Definition documented : list string := map fst documented_methods ++ documented_attributes.

(** What depends on the bytes that a layer keeps: the methods that flush first, according to rsiobase.py:50-117 and 165-246,
    or that move or use the position (io.IOBase). *)
Definition buffer_sensitive : list string :=
  ["read"; "read1"; "readall"; "readinto"; "readinto1"; "peek"; "readline"; "readlines"; "write"; "writelines"; "seek"; "tell";
   "truncate"; "flush"; "close"; "size"; "sync"; "lock_file"; "unlock_file"].
(** What the io module documents for a stream in a program: iteration and the with statement. *)
Definition special_methods : list string := ["__iter__"; "__next__"; "__enter__"; "__exit__"].
