(** Methods that a stream does not have and takes from the layer below it: __getattr__ of the buffered streams,
    rsfile_streams.py:67-72, and of the text streams, rsfile_streams.py:107-112.  No proofs here. *)
From Coq Require Import ZArith List Bool.
From Verif Require Import M_Base M_World M_Raw M_Buffered M_Text.
Import ListNotations.
Open Scope Z_scope.

(** readall() of a buffered stream: no class of pyio:776-881 and 1026-1475 has such a method, so that it is the one of the
    raw stream, rsfileio_abstract.py:354-370 *)
Definition b_readall : B (option (list byte)) := on_raw raw_readall.
(** tell() of the stream underneath, [stream.raw.tell()] (pyio:845-847; rsfileio_abstract.py:339-342) *)
Definition b_raw_tell : B Z := on_raw raw_tell.

(** read1(), peek(), readall() of a text stream: TextIOWrapper (pyio:1973-2647) does not have them, they are those of the
    buffered stream. *)
Definition t_read1 (c : tconf) (n : Z) : T (option (list byte)) := on_b (b_read1 (tc_kind c) n).
Definition t_peek (c : tconf) (n : Z) : T (list byte) := on_b (b_peek (tc_kind c) n).
Definition t_readall : T (option (list byte)) := on_b b_readall.
