(** A buffered stream that several processes have inherited through fork().  No proofs here.

    fork() copies the memory of the process, hence the stream object with its buffers
    (pyio: BufferedReader._read_buf/_read_pos 1046-1050, BufferedWriter._write_buf 1218); the
    descriptors of parent and child share one open file description, hence one position.
    The mutex of the stream is a multiprocessing.RLock() (rsfile_streams.py:165-166, for
    streams opened with "I", rsfile_factories.py:236-238): calls of different processes
    exclude each other, so here they follow one another. *)
From Coq Require Import ZArith List Bool.
From Verif Require Import M_Base M_Registry M_Kernel M_World M_Raw M_Buffered.
Import ListNotations.
Open Scope Z_scope.

(** The copies of the stream, one per process, and the world they share.  What the calls below
    do depends neither on the process number nor on the registry. *)
Record family : Type := mkFam { fm_copies : list bstate; fm_world : world }.

Fixpoint put_copy (j : nat) (b : bstate) (l : list bstate) : list bstate :=
  match l, j with
  | [], _ => []
  | _ :: r, O => b :: r
  | y :: r, S j => y :: put_copy j b r
  end.
(** A call in process [j]; nothing happens if there is no such process. *)
Definition in_process {A} (j : nat) (f : bstate -> A * bstate) (none : A) (F : family) : A * family :=
  match nth_error (fm_copies F) j with
  | None => (none, F)
  | Some b => let '(r, b') := f (set_world b (fm_world F)) in (r, mkFam (put_copy j b' (fm_copies F)) (b_w b'))
  end.
(** os.fork() in process [j]: the child, with the next number, has the same stream. *)
Definition fork_process (j : nat) (F : family) : family :=
  match nth_error (fm_copies F) j with
  | None => F
  | Some b => mkFam (fm_copies F ++ [b]) (fm_world F)
  end.
(** close() in one of the processes, pyio:824-830 and 1315-1328 with rsfileio_abstract.py:207-227:
    its descriptor is closed, the description is that of the others still. *)
Definition inherited_close (k : bkind) : B unit :=
  fun b => if f_closed (b_raw b) then (Ok tt, b) else
    finally (b_flush k)
      (fun b => (Ok tt, mkB (set_closed (b_raw b)) (b_size b) (b_rbuf b) (b_rpos b) (b_wbuf b) (b_w b))) b.
