(** Which class answers for an attribute of a stream: the classes of rsfile_streams.py, rsfileio_abstract.py and of pyio
    (_pyio_py312_backup.py), the order in which Python searches them, and __getattr__.  No proofs here. *)
From Coq Require Import String List Bool Arith.
Import ListNotations.
Open Scope string_scope.

(** A class: its bases, its public attributes with the parameters of the methods (self left out; "*": any arguments), and the
    special methods that matter here. *)
Record class : Type := mkClass { c_name : string; c_bases : list string; c_own : list (string * list string) }.

Definition classes : list class :=
  [ (* pyio:315-602 *)
    mkClass "IOBase" ["object"]
      [("seek", ["pos"; "whence"]); ("tell", []); ("truncate", ["pos"]); ("flush", []); ("close", []); ("seekable", []);
       ("readable", []); ("writable", []); ("closed", []); ("__enter__", []); ("__exit__", ["*"]); ("fileno", []); ("isatty", []);
       ("readline", ["size"]); ("__iter__", []); ("__next__", []); ("readlines", ["hint"]); ("writelines", ["lines"])];
    (* pyio:607-663 *)
    mkClass "RawIOBase" ["IOBase"] [("read", ["size"]); ("readall", []); ("readinto", ["b"]); ("write", ["b"])];
    (* pyio:670-771 *)
    mkClass "BufferedIOBase" ["IOBase"]
      [("read", ["size"]); ("read1", ["size"]); ("readinto", ["b"]); ("readinto1", ["b"]); ("write", ["b"]); ("detach", [])];
    (* pyio:776-880; readable and writable, which old versions have, are deleted, rsfile_streams.py:118-121 *)
    mkClass "_BufferedIOMixin" ["BufferedIOBase"]
      [("seek", ["pos"; "whence"]); ("tell", []); ("truncate", ["pos"]); ("flush", []); ("close", []); ("detach", []); ("seekable", []);
       ("raw", []); ("closed", []); ("name", []); ("mode", []); ("fileno", []); ("isatty", [])];
    (* pyio:1026-1224 *)
    mkClass "BufferedReader" ["_BufferedIOMixin"]
      [("readable", []); ("read", ["size"]); ("peek", ["size"]); ("read1", ["size"]); ("tell", []); ("seek", ["pos"; "whence"])];
    (* pyio:1226-1329 *)
    mkClass "BufferedWriter" ["_BufferedIOMixin"]
      [("writable", []); ("write", ["b"]); ("truncate", ["pos"]); ("flush", []); ("tell", []); ("seek", ["pos"; "whence"]); ("close", [])];
    (* pyio:1404-1475 *)
    mkClass "BufferedRandom" ["BufferedWriter"; "BufferedReader"]
      [("seek", ["pos"; "whence"]); ("tell", []); ("truncate", ["pos"]); ("read", ["size"]); ("readinto", ["b"]); ("peek", ["size"]);
       ("read1", ["size"]); ("readinto1", ["b"]); ("write", ["b"])];
    (* pyio:1821-1883 *)
    mkClass "TextIOBase" ["IOBase"]
      [("read", ["size"]); ("write", ["s"]); ("truncate", ["pos"]); ("readline", []); ("detach", []); ("encoding", []); ("newlines", []);
       ("errors", [])];
    (* pyio:1973-2647 *)
    mkClass "TextIOWrapper" ["TextIOBase"]
      [("encoding", []); ("errors", []); ("line_buffering", []); ("write_through", []); ("buffer", []);
       ("reconfigure", ["encoding"; "errors"; "newline"; "line_buffering"; "write_through"]); ("seekable", []); ("readable", []);
       ("writable", []); ("flush", []); ("close", []); ("closed", []); ("name", []); ("fileno", []); ("isatty", []); ("write", ["s"]);
       ("tell", []); ("truncate", ["pos"]); ("detach", []); ("seek", ["cookie"; "whence"]); ("read", ["size"]); ("__next__", []);
       ("readline", ["size"]); ("newlines", [])];
    (* rsfileio_abstract.py:22-727 *)
    mkClass "RSFileIOAbstract" ["RawIOBase"]
      [("close", []); ("isatty", []); ("seekable", []); ("readable", []); ("writable", []); ("mode", []); ("name", []); ("origin", []);
       ("closefd", []); ("fileno", []); ("handle", []); ("unique_id", []); ("uid", []); ("times", []); ("size", []); ("tell", []);
       ("seek", ["offset"; "whence"]); ("readall", []); ("read", ["n"]); ("readinto", ["buffer"]); ("write", ["buffer"]);
       ("truncate", ["size"; "zero_fill"]); ("flush", []); ("sync", ["metadata"; "full_flush"]);
       ("lock_file", ["timeout"; "length"; "offset"; "whence"; "shared"]); ("unlock_file", ["length"; "offset"; "whence"])];
    (* rsfileio_unix.py:23-303, rsfileio_windows.py:31-478: methods whose names begin with an underscore only *)
    mkClass "RSFileIO" ["RSFileIOAbstract"] [];
    (* rsfile_streams.py:33-72 *)
    mkClass "_buffer_forwarder_mixin" ["object"]
      [("unique_id", []); ("times", []); ("size", []); ("sync", ["*"]); ("lock_file", ["*"]); ("unlock_file", ["*"]); ("__getattr__", ["name"])];
    (* rsfile_streams.py:75-112 *)
    mkClass "_text_forwarder_mixin" ["object"]
      [("unique_id", []); ("times", []); ("size", []); ("sync", ["*"]); ("lock_file", ["*"]); ("unlock_file", ["*"]);
       ("readinto", ["buffer"]); ("__getattr__", ["name"])];
    (* rsfile_streams.py:124-147 *)
    mkClass "RSBufferedReader" ["_buffer_forwarder_mixin"; "BufferedReader"] [("readable", [])];
    mkClass "RSBufferedWriter" ["_buffer_forwarder_mixin"; "BufferedWriter"] [("writable", [])];
    mkClass "RSBufferedRandom" ["BufferedRandom"; "RSBufferedWriter"; "RSBufferedReader"] [];
    mkClass "RSTextIOWrapper" ["_text_forwarder_mixin"; "TextIOWrapper"] [];
    (* rsfile_streams.py:150-203 *)
    mkClass "RSThreadSafeWrapper" ["object"]
      [("__getattr__", ["name"]); ("__iter__", []); ("__enter__", []); ("__exit__", ["*"])] ].

Definition find_class (n : string) : option class := find (fun c => String.eqb (c_name c) n) classes.
Definition mem (n : string) (l : list string) : bool := existsb (String.eqb n) l.

(** The method resolution order of Python: the merge of the orders of the bases and of the list of the bases, in which each
    time the first head that no other list has in its tail is taken.  [None]: no order exists. *)
Definition in_tail (n : string) (l : list string) : bool := match l with [] => false | _ :: t => mem n t end.
Definition good_head (ls : list (list string)) : option string :=
  match find (fun l => match l with [] => false | h :: _ => negb (existsb (in_tail h) ls) end) ls with
  | Some (h :: _) => Some h
  | _ => None
  end.
Definition drop_head (n : string) (l : list string) : list string :=
  match l with h :: t => if String.eqb h n then t else l | [] => [] end.
Fixpoint merge (fuel : nat) (ls : list (list string)) : option (list string) :=
  match fuel with
  | O => None
  | S k =>
      if forallb (fun l => match l with [] => true | _ => false end) ls then Some []
      else match good_head ls with
           | None => None
           | Some h => option_map (cons h) (merge k (map (drop_head h) ls))
           end
  end.
Fixpoint all_some {A} (l : list (option A)) : option (list A) :=
  match l with
  | [] => Some []
  | Some x :: r => option_map (cons x) (all_some r)
  | None :: _ => None
  end.
Fixpoint mro (fuel : nat) (n : string) : option (list string) :=
  match fuel with
  | O => None
  | S k =>
      match find_class n with
      | None => Some [n]                                     (* object *)
      | Some c =>
          match all_some (map (mro k) (c_bases c)) with
          | None => None
          | Some ls => option_map (cons n) (merge (S (length classes)) (ls ++ [c_bases c]))
          end
      end
  end.
Definition order (n : string) : list string := match mro 9 n with Some l => l | None => [] end.

(** The class of the order that has the attribute, with its parameters. *)
Definition own (a : string) (c : string) : option (list string) :=
  match find_class c with Some c => option_map snd (find (fun x => String.eqb (fst x) a) (c_own c)) | None => None end.
Fixpoint first_own (a : string) (l : list string) : option (string * list string) :=
  match l with
  | [] => None
  | c :: r => match own a c with Some ps => Some (c, ps) | None => first_own a r end
  end.

(** A stream, from the top to the raw stream: the classes, each with the attributes set on the object. *)
Record obj : Type := mkObj { ob_class : string; ob_dict : list string }.
Definition raw_obj : obj := mkObj "RSFileIO" ["enforced_locking_timeout_value"; "default_spinlock_delay"].   (* rsfileio_abstract.py:86-87 *)
Definition buf_obj (c : string) : obj := mkObj c ["buffer_size"].                                          (* pyio:1046, 1242 *)
Definition text_obj : obj := mkObj "RSTextIOWrapper" ["mode"].                                             (* rsfile_factories.py:333 *)
Definition wrapper_obj : obj := mkObj "RSThreadSafeWrapper" ["wrapped_stream"; "is_interprocess"; "mutex"]. (* rsfile_streams.py:158-168 *)
(** What rsopen() builds, rsfile_factories.py:312-341 *)
Definition unwrapped : list (list obj) :=
  let buffers := map buf_obj ["RSBufferedReader"; "RSBufferedWriter"; "RSBufferedRandom"] in
  [raw_obj] :: map (fun b => [b; raw_obj]) buffers ++ map (fun b => [text_obj; b; raw_obj]) buffers.
Definition streams : list (list obj) := unwrapped ++ map (cons wrapper_obj) unwrapped.

(** [stream.a]: the layer that answers (0: the stream itself), the class, the parameters.  An attribute that neither the
    classes nor the object have is asked to __getattr__, which asks the layer below (rsfile_streams.py:67-72, 107-112, 174-186). *)
Inductive found : Type := InClass (c : string) (ps : list string) | InObject.
Fixpoint lookup (a : string) (s : list obj) : option (nat * found) :=
  match s with
  | [] => None
  | o :: below =>
      match first_own a (order (ob_class o)) with
      | Some (c, ps) => Some (O, InClass c ps)
      | None =>
          if mem a (ob_dict o) then Some (O, InObject)
          else match first_own "__getattr__" (order (ob_class o)) with
               | Some _ => option_map (fun x => (S (fst x), snd x)) (lookup a below)
               | None => None
               end
      end
  end.
(** [next(stream)], [iter(stream)], [with stream]: Python searches the classes only. *)
Definition special (a : string) (s : list obj) : option string :=
  match s with o :: _ => option_map fst (first_own a (order (ob_class o))) | [] => None end.
(** Whether a call with these keyword arguments is accepted. *)
Definition accepts (ps args : list string) : bool := mem "*" ps || forallb (fun a => mem a ps) args.
(** [stream.a(...)] with keyword arguments: forwarders with any arguments hand them to the layer below (rsfile_streams.py:46-56,
    88-98, and the wrapper, 170-172). *)
Fixpoint call_ok (a : string) (args : list string) (s : list obj) : bool :=
  match s with
  | [] => false
  | o :: below =>
      match first_own a (order (ob_class o)) with
      | Some (c, ps) => if mem "*" ps then call_ok a args below else accepts ps args
      | None => match first_own "__getattr__" (order (ob_class o)) with Some _ => call_ok a args below | None => false end
      end
  end.
