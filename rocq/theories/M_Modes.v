(** Model of the mode-string handling of rsopen. No proofs here. *)
From Coq Require Import ZArith List Bool Ascii String.
From Verif Require Import M_Base.
Import ListNotations.
Open Scope char_scope.

(** Characters are 8-bit [ascii]; Python strings hold any code point.  A code
    point above 127 is in no flag set, so every branch of rsopen that sees one
    raises BadValueTypeError; 8-bit characters above 127 represent them. *)
Definition chr_mem (c : ascii) (l : list ascii) : bool := existsb (Ascii.eqb c) l.

(** Python's [len(mode) > len(set(mode))]: some character is repeated. *)
Fixpoint has_dup (l : list ascii) : bool :=
  match l with
  | [] => false
  | c :: t => chr_mem c t || has_dup t
  end.

(** Python's str.lower / str.upper on the ASCII range. *)
Definition is_upper (c : ascii) : bool :=
  let n := N_of_ascii c in (65 <=? n)%N && (n <=? 90)%N.
Definition is_lower (c : ascii) : bool :=
  let n := N_of_ascii c in (97 <=? n)%N && (n <=? 122)%N.
Definition chr_lower (c : ascii) : ascii :=
  if is_upper c then ascii_of_N (N_of_ascii c + 32) else c.
Definition chr_upper (c : ascii) : ascii :=
  if is_lower c then ascii_of_N (N_of_ascii c - 32) else c.
Fixpoint str_eqb (a b : list ascii) : bool :=
  match a, b with
  | [], [] => true
  | x :: a', y :: b' => Ascii.eqb x y && str_eqb a' b'
  | _, _ => false
  end.

(** rsfile_definitions.py:22; [py_u] = (sys.version_info < (3, 11)). *)
Definition STDLIB_OPEN_FLAGS (py_u : bool) : list ascii :=
  ["x"; "a"; "r"; "w"; "+"; "b"; "t"] ++ (if py_u then ["U"] else []).
(** rsfile_definitions.py:23 *)
Definition ADVANCED_OPEN_FLAGS : list ascii :=
  ["R"; "A"; "W"; "+"; "-"; "C"; "N"; "S"; "I"; "E"; "B"; "T"].

(** First argument of rsopen after os.fspath: None, a str/bytes path, or an int
    (rsfile_factories.py:207-212; bools and other types are rejected there). *)
Inductive pyname : Type := NNone | NPath (p : list ascii) | NInt (n : Z).

(** raw_kwargs, rsfile_factories.py:395-407 / 438-450.  In advanced mode [path]
    may be an int (parse_advanced_args does not check it). *)
Record raw_kwargs : Type := mkRaw {
  rk_path : pyname;
  rk_read : bool; rk_write : bool; rk_append : bool;
  rk_must_create : bool; rk_must_not_create : bool;
  rk_synchronized : bool; rk_inheritable : bool;
  rk_fileno : option Z; rk_handle : option Z; rk_closefd : bool }.
(** extended_kwargs, rsfile_factories.py:409 / 452 *)
Record ext_kwargs : Type := mkExt {
  ek_truncate : bool; ek_binary : bool; ek_text : bool }.

Definition b2n (b : bool) : nat := if b then 1 else 0.

(** rsfile_factories.py:349-411 *)
Definition parse_standard_args (py_u : bool) (name : pyname) (mode : list ascii)
    (fileno handle : option Z) (closefd : bool) : res (raw_kwargs * ext_kwargs) :=
  if (match mode with [] => true | _ => false end)
     || existsb (fun c => negb (chr_mem c (STDLIB_OPEN_FLAGS py_u))) mode
     || has_dup mode
  then Err EBadValue
  else
  let creating_flag := chr_mem "x" mode in
  let reading_flag := chr_mem "r" mode || chr_mem "U" mode in
  let writing_flag := chr_mem "w" mode in
  let appending_flag := chr_mem "a" mode in
  let updating_flag := chr_mem "+" mode in
  let truncate := writing_flag in
  let binary := chr_mem "b" mode in
  let text := chr_mem "t" mode in
  if chr_mem "U" mode
     && (creating_flag || writing_flag || appending_flag || updating_flag)
  then Err EBadValue
  else
  if negb (b2n creating_flag + b2n reading_flag + b2n writing_flag
           + b2n appending_flag =? 1)%nat
  then Err EBadValue
  else
  let resolved :=
    match name with
    | NNone => Ok (NNone, fileno)
    | NPath p => Ok (NPath p, fileno)
    | NInt n => match fileno with
                | Some _ => Err EBadValue
                | None => Ok (NNone, Some n)
                end
    end in
  match resolved with
  | Err e => Err e
  | Ok (path, fileno') =>
      let read := reading_flag || updating_flag in
      let write := creating_flag || writing_flag || appending_flag || updating_flag in
      let append := appending_flag in
      let must_create := creating_flag in
      let must_not_create :=
        reading_flag && negb (creating_flag || writing_flag || appending_flag) in
      let truncate' := if must_create then false else truncate in
      Ok (mkRaw path read write append must_create must_not_create false false
                fileno' handle closefd,
          mkExt truncate' binary text)
  end.

(** rsfile_factories.py:414-454 *)
Definition parse_advanced_args (path : pyname) (mode : list ascii)
    (fileno handle : option Z) (closefd : bool) : res (raw_kwargs * ext_kwargs) :=
  if existsb (fun c => negb (chr_mem c ADVANCED_OPEN_FLAGS)) mode || has_dup mode
  then Err EBadValue
  else
  let read := chr_mem "R" mode in
  let append := chr_mem "A" mode in
  let write := chr_mem "W" mode || append in
  let must_create := chr_mem "C" mode || chr_mem "-" mode in
  let must_not_create := chr_mem "N" mode || chr_mem "+" mode in
  let synchronized := chr_mem "S" mode in
  let inheritable := chr_mem "I" mode in
  let truncate := chr_mem "E" mode in
  let binary := chr_mem "B" mode in
  let text := chr_mem "T" mode in
  let truncate' := if must_create then false else truncate in
  Ok (mkRaw path read write append must_create must_not_create synchronized
            inheritable fileno handle closefd,
      mkExt truncate' binary text).

(** The dispatch of rsopen, rsfile_factories.py:225-234. *)
Definition parse_mode (py_u : bool) (name : pyname) (mode : list ascii)
    (fileno handle : option Z) (closefd : bool) : res (raw_kwargs * ext_kwargs) :=
  let cleaned := filter (fun c => negb (Ascii.eqb c "U")) mode in
  if str_eqb (map chr_lower cleaned) cleaned
  then parse_standard_args py_u name mode fileno handle closefd
  else if str_eqb (map chr_upper cleaned) cleaned
  then parse_advanced_args name mode fileno handle closefd
  else Err EBadValue.

(** Python truthiness of an optional integer ([if raw_kwargs["fileno"]]). *)
Definition truthy (o : option Z) : bool :=
  match o with None => false | Some z => negb (Z.eqb z 0) end.

(** What rsopen does with its arguments before creating the raw stream,
    rsfile_factories.py:222-272 (types of buffering/encoding/errors assumed
    right: lines 211-220 only reject ill-typed values).
    [opener_result]: None if no opener is given, else what it returned.
    [enc], [errs], [nl]: whether encoding / errors / newline is not None.
    Line 265 (buffering = 1 in binary mode) only warns. *)
Definition rsopen_prelude (py_u : bool) (name : pyname) (mode : list ascii)
    (fileno handle : option Z) (closefd : bool) (opener_result : option Z)
    (thread_safe has_mutex enc errs nl : bool) : res (raw_kwargs * ext_kwargs) :=
  if negb thread_safe && has_mutex then Err EBadValue
  else
  match parse_mode py_u name mode fileno handle closefd with
  | Err e => Err e
  | Ok (rk, ek) =>
      let opened :=
        match opener_result with
        | None => Ok rk
        | Some fd =>
            if truthy (rk_fileno rk) then Err EBadValue
            else if (fd <? 0)%Z then Err EBadValue
            else Ok (mkRaw NNone (rk_read rk) (rk_write rk) (rk_append rk)
                      (rk_must_create rk) (rk_must_not_create rk) (rk_synchronized rk)
                      (rk_inheritable rk) (Some fd) (rk_handle rk) (rk_closefd rk))
        end in
      match opened with
      | Err e => Err e
      | Ok rk' =>
          if ek_truncate ek && negb (rk_write rk' || rk_append rk') then Err EBadValue
          else
          let truncate' :=
            if ek_truncate ek && (truthy (rk_fileno rk') || truthy (rk_handle rk'))
            then false else ek_truncate ek in
          if ek_binary ek && ek_text ek then Err EBadValue
          else if ek_binary ek && enc then Err EBadValue
          else if ek_binary ek && errs then Err EBadValue
          else if ek_binary ek && nl then Err EBadValue
          else Ok (rk', mkExt truncate' (ek_binary ek) (ek_text ek))
      end
  end.

Definition is_some {A} (o : option A) : bool := match o with Some _ => true | None => false end.

(** bool(path): a non-empty str/bytes.  [NInt] is rejected before. *)
Definition path_truthy (p : pyname) : bool :=
  match p with NPath (_ :: _) => true | _ => false end.

(** The checks of RSFileIOAbstract.__init__ that precede the opening of the
    file, rsfileio_abstract.py:90-163.  Returns the effective [write]. *)
Definition init_checks (rk : raw_kwargs) : res unit :=
  let write := rk_write rk || rk_append rk in
  if (match rk_path rk with NInt _ => true | _ => false end) then Err EBadValue
  else if negb (b2n (path_truthy (rk_path rk)) + b2n (is_some (rk_fileno rk))
                + b2n (is_some (rk_handle rk)) =? 1)%nat then Err EBadValue
  else if negb (rk_read rk) && negb write then Err EBadValue
  else if rk_must_create rk && rk_must_not_create rk then Err EBadValue
  else if negb (rk_closefd rk) && negb (is_some (rk_fileno rk) || is_some (rk_handle rk))
  then Err EBadValue
  else if (match rk_path rk, rk_fileno rk, rk_handle rk with
           | NNone, Some f, _ => (f <? 0)%Z
           | NNone, None, Some h => (h <? 0)%Z
           | _, _, _ => false
           end) then Err EBadValue
  else if (match rk_path rk with
           | NPath p => chr_mem "000" p
           | _ => false end) then Err EBadValue
  else Ok tt.

(** Flags passed to open(2), rsfileio_unix.py:100-120.  [of_rdwr]: access mode. *)
Record oflags : Type := mkOFlags {
  of_sync : bool; of_rd : bool; of_wr : bool; of_append : bool;
  of_creat : bool; of_excl : bool; of_trunc : bool }.
Definition unix_open_flags (rk : raw_kwargs) : oflags :=
  let write := rk_write rk || rk_append rk in
  let '(rd, wr) := if rk_read rk && write then (true, true)
                   else if write then (false, true) else (true, false) in
  let '(creat, excl) := if rk_must_not_create rk then (false, false)
                        else if rk_must_create rk then (true, true)
                        else (true, false) in
  mkOFlags (rk_synchronized rk) rd wr (rk_append rk) creat excl false.

(** The stdlib pure-Python open() (mode part),
    rstest/stdlib/_pyio_py312_backup.py:207-240 (Python >= 3.11, no "U") and
    FileIO.__init__ 1519-1549.  Returns (flags, binary). *)
Definition pyio_open_mode (mode : list ascii) : res (oflags * bool) :=
  if existsb (fun c => negb (chr_mem c ["a"; "x"; "r"; "w"; "b"; "+"; "t"])) mode
     || has_dup mode
  then Err EValue
  else
  let creating := chr_mem "x" mode in
  let reading := chr_mem "r" mode in
  let writing := chr_mem "w" mode in
  let appending := chr_mem "a" mode in
  let updating := chr_mem "+" mode in
  let text := chr_mem "t" mode in
  let binary := chr_mem "b" mode in
  if text && binary then Err EValue
  else if (1 <? b2n creating + b2n reading + b2n writing + b2n appending)%nat then Err EValue
  else if negb (creating || reading || writing || appending) then Err EValue
  else
  (* the mode handed to FileIO has exactly these flags, 235-240 *)
  let '(rd0, wr0, creat, excl, trunc, app) :=
    if creating then (false, true, true, true, false, false)
    else if reading then (true, false, false, false, false, false)
    else if writing then (false, true, true, false, true, false)
    else (false, true, true, false, false, true) in
  let '(rd, wr) := if updating then (true, true) else (rd0, wr0) in
  Ok (mkOFlags false rd wr app creat excl trunc, binary).
