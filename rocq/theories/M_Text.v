(** Model of the text streams: RSTextIOWrapper, rsfile_streams.py:77-114 and 146-147, on top of TextIOWrapper of _pyio,
    read in rstest/stdlib/_pyio_py312_backup.py:1973-2647 ("pyio" below), over the buffered streams of M_Buffered.
    Texts are lists of code points.  No proofs here. *)
From Coq Require Import ZArith List Bool Ascii.
From Verif Require Import M_Base M_Modes M_Registry M_Kernel M_World M_Raw M_Buffered M_Newline.
Import ListNotations.
Open Scope Z_scope.

(** An encoding with its error handler: the incremental encoder and decoder that codecs.getincrementalencoder and
    codecs.getincrementaldecoder give for it (pyio:2221-2232).  They are outside the repository, hence parameters.  None:
    UnicodeError, a ValueError.  A decoder state is (bytes kept, flags), as getstate() and setstate() have it; an encoder
    state is the number of its getstate() and setstate(). *)
Record codec : Type := mkCodec {
  cd_e0 : Z; cd_encode : Z -> list Z -> option (list byte * Z);
  cd_d0 : Z; cd_decode : list byte * Z -> list byte -> bool -> option (list Z * (list byte * Z)) }.

(** The newline argument, pyio:2039-2043 *)
Inductive nlarg : Type := NlNone | NlEmpty | NlLf | NlCr | NlCrLf.
Definition nl_str (n : nlarg) : list Z :=
  match n with NlNone | NlEmpty => [] | NlLf => [LF] | NlCr => [CR] | NlCrLf => [CR; LF] end.

(** What a stream is built with: encoding, newline, os.linesep, line_buffering, class of the buffer. *)
Record tconf : Type := mkTC {
  tc_codec : codec; tc_newline : nlarg; tc_linesep : list Z; tc_line_buffering : bool; tc_kind : bkind }.
(** _readuniversal, _readtranslate, _writetranslate, _writenl, pyio:2053-2057 *)
Definition readuniversal (c : tconf) : bool := match tc_newline c with NlNone | NlEmpty => true | _ => false end.
Definition readtranslate (c : tconf) : bool := match tc_newline c with NlNone => true | _ => false end.
Definition writetranslate (c : tconf) : bool := match tc_newline c with NlEmpty => false | _ => true end.
Definition writenl (c : tconf) : list Z := match nl_str (tc_newline c) with [] => tc_linesep c | s => s end.

(** The decoder of a text stream: that of the codec, inside an IncrementalNewlineDecoder if universal (pyio:2226-2232). *)
Record dec : Type := mkDec { d_buf : list byte; d_flags : Z; d_nl : nlstate }.
Definition dec_init (c : tconf) : dec := mkDec [] (cd_d0 (tc_codec c)) nl_init.
Definition dec_decode (c : tconf) (d : dec) (input : list byte) (final : bool) : option (list Z * dec) :=
  match cd_decode (tc_codec c) (d_buf d, d_flags d) input final with
  | None => None
  | Some (out, (buf, flags)) =>
      if readuniversal c then
        let '(out, nl) := nl_decode (readtranslate c) out final (d_nl d) in Some (out, mkDec buf flags nl)
      else Some (out, mkDec buf flags (d_nl d))
  end.
(** getstate, setstate, reset: pyio:1932-1954 *)
Definition dec_getstate (c : tconf) (d : dec) : list byte * Z :=
  if readuniversal c then (d_buf d, Z.lor (Z.shiftl (d_flags d) 1) (if nl_pending (d_nl d) then 1 else 0))
  else (d_buf d, d_flags d).
Definition dec_setstate (c : tconf) (d : dec) (s : list byte * Z) : dec :=
  let '(buf, flag) := s in
  if readuniversal c then
    mkDec buf (Z.shiftr flag 1)
          (mkNl (nl_lf (d_nl d)) (nl_cr (d_nl d)) (nl_crlf (d_nl d)) (negb (Z.land flag 1 =? 0)))
  else mkDec buf flag (d_nl d).
Definition dec_reset (c : tconf) (d : dec) : dec := dec_init c.

(** The attributes _encoder, _decoder, _decoded_chars, _decoded_chars_used, _snapshot, _telling, _b2cratio (as
    dividend and divisor), and the buffer. *)
Record tstate : Type := mkT {
  t_enc : option Z; t_dec : option dec; t_chars : list Z; t_used : nat; t_snap : option (Z * list byte);
  t_telling : bool; t_ratio : nat * nat; t_b : bstate }.
Definition set_enc (t : tstate) (e : option Z) : tstate :=
  mkT e (t_dec t) (t_chars t) (t_used t) (t_snap t) (t_telling t) (t_ratio t) (t_b t).
Definition set_dec (t : tstate) (d : option dec) : tstate :=
  mkT (t_enc t) d (t_chars t) (t_used t) (t_snap t) (t_telling t) (t_ratio t) (t_b t).
(** _set_decoded_chars, pyio:2237-2240 *)
Definition set_chars (t : tstate) (s : list Z) (used : nat) : tstate :=
  mkT (t_enc t) (t_dec t) s used (t_snap t) (t_telling t) (t_ratio t) (t_b t).
Definition set_snap (t : tstate) (s : option (Z * list byte)) : tstate :=
  mkT (t_enc t) (t_dec t) (t_chars t) (t_used t) s (t_telling t) (t_ratio t) (t_b t).
Definition set_telling (t : tstate) (b : bool) : tstate :=
  mkT (t_enc t) (t_dec t) (t_chars t) (t_used t) (t_snap t) b (t_ratio t) (t_b t).
Definition set_ratio (t : tstate) (r : nat * nat) : tstate :=
  mkT (t_enc t) (t_dec t) (t_chars t) (t_used t) (t_snap t) (t_telling t) r (t_b t).
Definition set_b (t : tstate) (b : bstate) : tstate :=
  mkT (t_enc t) (t_dec t) (t_chars t) (t_used t) (t_snap t) (t_telling t) (t_ratio t) b.

Definition T (A : Type) : Type := comp tstate A.
Definition on_b {A} (m : B A) : T A := fun t => let '(r, b) := m (t_b t) in (r, set_b t b).
Definition upd_t (f : tstate -> tstate) : T unit := fun t => (Ok tt, f t).
Definition t_seekable (t : tstate) : bool := f_seekable (b_raw (t_b t)).

(** __init__ and _configure, pyio:2005-2072, for arguments that are accepted.  The encoder is made at once, without
    byte order mark, if the file can be written and the position (read by M_Open.make_text) is not 0. *)
Definition t_fresh (b : bstate) : tstate :=
  let f := b_raw b in
  let enc := if f_seekable f && f_writable f then
               match w_fds (b_w b) (fd_of f) with
               | Some o => if o_pos o =? 0 then None else Some 0
               | None => None
               end
             else None in
  mkT enc None [] 0 None (f_seekable f) (0, 1)%nat b.

(** closed is buffer.closed, pyio:2183-2185; message-less ValueError of the methods that look *)
Definition t_check_closed : T unit := fun t => if f_closed (b_raw (t_b t)) then (Err EValue, t) else (Ok tt, t).
(** _checkReadable, pyio:456-461 with readable() of the buffer, rsfile_streams.py:124-143 *)
Definition t_check_readable (c : tconf) : T unit :=
  match tc_kind c with
  | BWriter => raise EUnsupported
  | _ => t_check_closed
  end.

(** flush, pyio:2172-2174 *)
Definition t_flush (c : tconf) : T unit :=
  on_b (b_flush (tc_kind c)) ;; upd_t (fun t => set_telling t (t_seekable t)).
(** close, pyio:2176-2181 *)
Definition t_close (c : tconf) : T unit :=
  fun t => if f_closed (b_raw (t_b t)) then (Ok tt, t)
           else finally (t_flush c) (on_b (b_close (tc_kind c))) t.

(** * Writing: pyio:2197-2219 *)
Definition has_char (c : Z) (s : list Z) : bool := existsb (fun x => x =? c) s.
Definition seq_eqb (a b : list Z) : bool :=
  Nat.eqb (length a) (length b) && forallb (fun p => fst p =? snd p) (combine a b).
Definition t_write (c : tconf) (s : list Z) : T Z :=
  t_check_closed ;;
  let haslf := (writetranslate c || tc_line_buffering c) && has_char LF s in
  let s1 := if haslf && writetranslate c && negb (seq_eqb (writenl c) [LF]) then replace_char LF (writenl c) s else s in
  fun t =>
    let e := match t_enc t with Some e => e | None => cd_e0 (tc_codec c) end in
    match cd_encode (tc_codec c) e s1 with
    | None => (Err EValue, set_enc t (Some e))
    | Some (b, e') =>
        (upd_t (fun t => set_enc t (Some e')) ;;
         on_b (b_write (tc_kind c) b) ;;
         (if tc_line_buffering c && (haslf || has_char CR s1) then t_flush c else ret tt) ;;
         upd_t (fun t => match t_snap t with Some _ => set_snap (set_chars t [] 0) None | None => t end) ;;
         upd_t (fun t => match t_dec t with Some d => set_dec t (Some (dec_reset c d)) | None => t end) ;;
         ret (Z.of_nat (length s))) t
    end.

(** * Reading *)
(** [self._decoder or self._get_decoder()] *)
Definition t_make_decoder (c : tconf) : T unit :=
  upd_t (fun t => match t_dec t with Some _ => t | None => set_dec t (Some (dec_init c)) end).
Definition t_decoder (c : tconf) (t : tstate) : dec := match t_dec t with Some d => d | None => dec_init c end.

(** decoder.decode *)
Definition t_decode (c : tconf) (input : list byte) (final : bool) : T (list Z) :=
  fun t => match dec_decode c (t_decoder c t) input final with
           | None => (Err EValue, t)
           | Some (out, d) => (Ok out, set_dec t (Some d))
           end.

(** _get_decoded_chars, pyio:2242-2250 *)
Definition get_chars (n : option nat) : T (list Z) :=
  fun t =>
    let all := skipn (t_used t) (t_chars t) in
    let chars := match n with None => all | Some n => firstn n all end in
    (Ok chars, set_chars t (t_chars t) (t_used t + length chars)).
(** _rewind_decoded_chars, pyio:2261-2265 *)
Definition rewind_chars (n : nat) : T unit :=
  fun t => if (t_used t <? n)%nat then (Err EAssert, t) else (Ok tt, set_chars t (t_chars t) (t_used t - n)).

(** _read_chunk, pyio:2267-2307.  When the buffer would block, [None] is given to the decoder: TypeError. *)
Definition CHUNK_SIZE : Z := 2048.
Definition read_chunk (c : tconf) : T bool :=
  fun t =>
    match t_dec t with
    | None => (Err EValue, t)
    | Some d =>
        let '(dec_buffer, dec_flags) := dec_getstate c d in
        (chunk <- on_b (b_read1 (tc_kind c) CHUNK_SIZE) ;;
         match chunk with
         | None => raise EType
         | Some chunk =>
             let eof := match chunk with [] => true | _ => false end in
             out <- t_decode c chunk eof ;;
             upd_t (fun t => set_chars t out 0) ;;
             upd_t (fun t => set_ratio t (match out with [] => (0, 1)%nat | _ => (length chunk, length out) end)) ;;
             (if t_telling t then upd_t (fun t => set_snap t (Some (dec_flags, dec_buffer ++ chunk))) else ret tt) ;;
             ret (negb eof)
         end) t
    end.

(** Every chunk but the last has a byte: this bounds the number of chunks. *)
Definition chunk_fuel : T nat :=
  fun t => (n <- on_b read_fuel ;; ret (n + length (unread (t_b t)) + length (b_wbuf (t_b t)) + 2)%nat) t.

(** read(), pyio:2514-2541 *)
Fixpoint read_loop (fuel : nat) (c : tconf) (size : nat) (res : list Z) : T (list Z) :=
  match fuel with
  | O => raise EFuel
  | S k =>
      if (length res <? size)%nat then
        more <- read_chunk c ;;
        out <- get_chars (Some (size - length res)%nat) ;;
        if more : bool then read_loop k c size (res ++ out) else ret (res ++ out)
      else ret res
  end.
Definition t_read (c : tconf) (size : option Z) : T (list Z) :=
  let size := match size with None => -1 | Some n => n end in
  t_check_readable c ;;
  t_make_decoder c ;;
  if size <? 0 then
    a <- get_chars None ;;
    b <- on_b (b_read (tc_kind c) None) ;;
    match b with
    | None => raise EType
    | Some b =>
        r <- t_decode c b true ;;
        upd_t (fun t => match t_snap t with Some _ => set_snap (set_chars t [] 0) None | None => t end) ;;
        ret (a ++ r)
    end
  else
    r <- get_chars (Some (Z.to_nat size)) ;;
    fuel <- chunk_fuel ;;
    read_loop fuel c (Z.to_nat size) r.

(** ** readline, pyio:2552-2642 *)
(** s.find(c, start), None for -1 *)
Fixpoint find_char (c : Z) (s : list Z) : option nat :=
  match s with
  | [] => None
  | x :: r => if x =? c then Some O else match find_char c r with None => None | Some n => Some (S n) end
  end.
Definition find_from (c : Z) (s : list Z) (start : nat) : option nat :=
  match find_char c (skipn start s) with None => None | Some n => Some (start + n)%nat end.
(** s.startswith(p) and s.find(p) *)
Fixpoint starts_with (p s : list Z) : bool :=
  match p, s with
  | [], _ => true
  | _, [] => false
  | x :: p', y :: s' => (x =? y) && starts_with p' s'
  end.
Fixpoint find_sub (p s : list Z) : option nat :=
  if starts_with p s then Some O
  else match s with
       | [] => None
       | _ :: r => match find_sub p r with None => None | Some n => Some (S n) end
       end.

(** The search for a line ending in one turn of the loop, lines 2575-2620: its end, if there is one. *)
Definition find_end (c : tconf) (line : list Z) (start : nat) : option nat :=
  match tc_newline c with
  | NlNone => match find_from LF line start with Some p => Some (p + 1)%nat | None => None end
  | NlEmpty =>
      match find_from CR line start, find_from LF line start with
      | None, None => None
      | None, Some nlpos => Some (nlpos + 1)%nat
      | Some crpos, None => Some (crpos + 1)%nat
      | Some crpos, Some nlpos =>
          if (nlpos <? crpos)%nat then Some (nlpos + 1)%nat
          else if (nlpos =? crpos + 1)%nat then Some (crpos + 2)%nat
          else Some (crpos + 1)%nat
      end
  | _ => match find_sub (nl_str (tc_newline c)) line with
         | Some p => Some (p + length (nl_str (tc_newline c)))%nat
         | None => None
         end
  end.

(** Lines 2627-2629: chunks until some characters come, or the end *)
Fixpoint fetch (fuel : nat) (c : tconf) : T unit :=
  match fuel with
  | O => raise EFuel
  | S k =>
      more <- read_chunk c ;;
      fun t => if negb more then (Ok tt, t)
               else match t_chars t with [] => fetch k c t | _ => (Ok tt, t) end
  end.

Definition over (size : Z) (n : nat) : bool := (0 <=? size) && (size <=? Z.of_nat n).
Fixpoint tline_loop (fuel : nat) (c : tconf) (size : Z) (line : list Z) (start : nat) : T (list Z) :=
  let finish (endpos : nat) : T (list Z) :=
    let endpos := if (0 <=? size) && (size <? Z.of_nat endpos) then Z.to_nat size else endpos in
    rewind_chars (length line - endpos) ;; ret (firstn endpos line) in
  match fuel with
  | O => raise EFuel
  | S k =>
      match find_end c line start with
      | Some endpos => finish endpos
      | None =>
          if over size (length line) then finish (Z.to_nat size)
          else
            f <- chunk_fuel ;;
            fetch f c ;;
            fun t => match t_chars t with
                     | [] => (Ok line, set_snap (set_chars t [] 0) None)
                     | _ => (more <- get_chars None ;; tline_loop k c size (line ++ more) (length line)) t
                     end
      end
  end.
Definition t_readline (c : tconf) (size : option Z) : T (list Z) :=
  t_check_closed ;;
  line <- get_chars None ;;
  t_make_decoder c ;;
  fuel <- chunk_fuel ;;
  tline_loop fuel c (match size with None => -1 | Some n => n end) line 0.

(** __next__, pyio:2543-2550.  None: StopIteration *)
Definition t_next (c : tconf) : T (option (list Z)) :=
  upd_t (fun t => set_telling t false) ;;
  line <- t_readline c None ;;
  match line with
  | [] => upd_t (fun t => set_telling (set_snap t None) (t_seekable t)) ;; ret None
  | _ => ret (Some line)
  end.

(** * Positions *)
(** _pack_cookie and _unpack_cookie, pyio:2309-2324 *)
Record cookie : Type := mkCk { ck_pos : Z; ck_flags : Z; ck_feed : Z; ck_eof : bool; ck_skip : Z }.
Definition pack_cookie (k : cookie) : Z :=
  Z.lor (Z.lor (Z.lor (Z.lor (ck_pos k) (Z.shiftl (ck_flags k) 64)) (Z.shiftl (ck_feed k) 128)) (Z.shiftl (ck_skip k) 192))
        (Z.shiftl (if ck_eof k then 1 else 0) 256).
Definition unpack_cookie (n : Z) : cookie :=
  let w := 2 ^ 64 in
  mkCk (n mod w) ((n / w) mod w) ((n / w / w) mod w) (negb (n / w / w / w / w =? 0)) ((n / w / w / w) mod w).

Section Tell.
  (** [guess a b n] is int((a / b) * n), computed with floating point numbers, line 2361 *)
  Variable guess : nat -> nat -> nat -> Z.

  (** decoder.decode on the decoder alone *)
  Definition dec_try (c : tconf) (d : dec) (input : list byte) (final : bool) : res (list Z * dec) :=
    match dec_decode c d input final with None => Err EValue | Some x => Ok x end.

  (** The while loop, lines 2364-2384.  Result: skip_bytes, dec_flags, chars_to_skip and the decoder. *)
  Fixpoint skip_loop (fuel : nat) (c : tconf) (input : list byte) (flags : Z) (skip back : Z) (todo : nat) (d : dec)
    : res (Z * Z * nat * dec) :=
    match fuel with
    | O => Err EFuel
    | S k =>
        if 0 <? skip then
          match dec_try c (dec_setstate c d ([], flags)) (firstn (Z.to_nat skip) input) false with
          | Err e => Err e
          | Ok (out, d1) =>
              if (length out <=? todo)%nat then
                let '(b, fl) := dec_getstate c d1 in
                match b with
                | [] => Ok (skip, fl, (todo - length out)%nat, d1)
                | _ => skip_loop k c input flags (skip - Z.of_nat (length b)) 1 todo d1
                end
              else skip_loop k c input flags (skip - back) (back * 2) todo d1
          end
        else Ok (0, flags, todo, dec_setstate c d ([], flags))
    end.

  (** The for loop, lines 2398-2419, over what is left of next_input. *)
  Fixpoint feed_loop (c : tconf) (input : list byte) (start flags : Z) (fed : Z) (decoded todo : nat) (d : dec) : res cookie :=
    match input with
    | [] =>
        match dec_try c d [] true with
        | Err e => Err e
        | Ok (out, _) =>
            if (decoded + length out <? todo)%nat then Err (EOS 0)
            else Ok (mkCk start flags fed true (Z.of_nat todo))
        end
    | x :: r =>
        match dec_try c d [x] false with
        | Err e => Err e
        | Ok (out, d1) =>
            let fed := fed + 1 in
            let decoded := (decoded + length out)%nat in
            let '(b, fl) := dec_getstate c d1 in
            let '(start, flags, fed, decoded, todo) :=
              if (match b with [] => true | _ => false end) && (decoded <=? todo)%nat
              then (start + fed, fl, 0, O, (todo - decoded)%nat)
              else (start, flags, fed, decoded, todo) in
            if (todo <=? decoded)%nat then Ok (mkCk start flags fed false (Z.of_nat todo))
            else feed_loop c r start flags fed decoded todo d1
        end
    end.

  (** tell(), pyio:2326-2423.  The decoder gets its state back in the end (but for the newlines it has seen). *)
  Definition t_tell (c : tconf) : T Z :=
    (fun t => if negb (t_seekable t) then (Err EUnsupported, t)
              else if negb (t_telling t) then (Err (EOS 0), t) else (Ok tt, t)) ;;
    t_flush c ;;
    position <- on_b (b_tell (tc_kind c)) ;;
    fun t =>
      match t_dec t, t_snap t with
      | Some d, Some (flags, input) =>
          let position := position - Z.of_nat (length input) in
          let todo := t_used t in
          if (todo =? 0)%nat then (Ok (pack_cookie (mkCk position flags 0 false 0)), t)
          else
            let skip := guess (fst (t_ratio t)) (snd (t_ratio t)) todo in
            let r :=
              if negb (skip <=? Z.of_nat (length input)) then Err EAssert
              else match skip_loop (S (Z.to_nat skip)) c input flags skip 1 todo d with
                   | Err e => Err e
                   | Ok (skip, flags, todo, d1) =>
                       if (todo =? 0)%nat then Ok (mkCk (position + skip) flags 0 false 0)
                       else feed_loop c (skipn (Z.to_nat skip) input) (position + skip) flags 0 0 todo d1
                   end in
            match r with
            | Ok k => (Ok (pack_cookie k), t)
            | Err e => (Err e, t)
            end
      | _, _ => match t_chars t with
                | [] => (Ok position, t)
                | _ => (Err EAssert, t)
                end
      end.

  (** _reset_encoder, pyio:2440-2450 *)
  Definition reset_encoder (c : tconf) (position : Z) : T unit :=
    upd_t (fun t => set_enc t (Some (if position =? 0 then cd_e0 (tc_codec c) else 0))).

  (** seek(), pyio:2439-2512; here from line 2477 on *)
  Definition t_seek_to (c : tconf) (n : Z) : T Z :=
    (if n <? 0 then raise EValue else ret tt) ;;
    t_flush c ;;
    let k := unpack_cookie n in
    on_b (b_seek (tc_kind c) (ck_pos k) 0) ;;
    upd_t (fun t => set_snap (set_chars t [] 0) None) ;;
    upd_t (fun t =>
      match t_dec t with
      | Some d => if n =? 0 then set_dec t (Some (dec_reset c d))
                  else set_snap (set_dec t (Some (dec_setstate c d ([], ck_flags k)))) (Some (ck_flags k, []))
      | None => if negb (ck_flags k =? 0) || negb (ck_skip k =? 0)
                then set_snap (set_dec t (Some (dec_setstate c (dec_init c) ([], ck_flags k)))) (Some (ck_flags k, []))
                else t
      end) ;;
    (if ck_skip k =? 0 then ret tt
     else
       input <- on_b (b_read (tc_kind c) (Some (ck_feed k))) ;;
       match input with
       | None => raise EType
       | Some input =>
           out <- t_decode c input (ck_eof k) ;;
           upd_t (fun t => set_snap (set_chars t out 0) (Some (ck_flags k, input))) ;;
           if Z.of_nat (length out) <? ck_skip k then raise (EOS 0)
           else upd_t (fun t => set_chars t (t_chars t) (Z.to_nat (ck_skip k)))
       end) ;;
    reset_encoder c n ;;
    ret n.
  Definition t_seek (c : tconf) (n : Z) (whence : Z) : T Z :=
    t_check_closed ;;
    (fun t => if negb (t_seekable t) then (Err EUnsupported, t) else (Ok tt, t)) ;;
    if whence =? 1 then
      if negb (n =? 0) then raise EUnsupported
      else n <- t_tell c ;; t_seek_to c n
    else if whence =? 2 then
      if negb (n =? 0) then raise EUnsupported
      else
        t_flush c ;;
        p <- on_b (b_seek (tc_kind c) 0 2) ;;
        upd_t (fun t => set_snap (set_chars t [] 0) None) ;;
        upd_t (fun t => match t_dec t with Some d => set_dec t (Some (dec_reset c d)) | None => t end) ;;
        reset_encoder c p ;;
        ret p
    else if negb (whence =? 0) then raise EValue
    else t_seek_to c n.

  (** truncate(), pyio:2425-2429 *)
  Definition t_truncate (c : tconf) (pos : option Z) : T Z :=
    t_flush c ;;
    p <- (match pos with None => t_tell c | Some p => ret p end) ;;
    on_b (b_truncate (tc_kind c) (Some p)).

  (** * The rsfile additions, rsfile_streams.py:78-100 *)
  Definition t_reset_buffers (c : tconf) : T unit := t_seek c 0 1 ;; ret tt.
  Definition t_size (c : tconf) : T Z := t_flush c ;; on_b (b_fsize (tc_kind c)).
  Definition t_sync (c : tconf) (has_fdatasync metadata full_flush : bool) : T unit :=
    t_flush c ;; on_b (b_sync has_fdatasync (tc_kind c) metadata full_flush).
  Definition t_lock_file (c : tconf) (timeout length offset : parg) (whence : Z) (shared : sarg) : T (option Z * Z) :=
    t_reset_buffers c ;; on_b (b_lock_file (tc_kind c) timeout length offset whence shared).
  Definition t_unlock_file (c : tconf) (length offset : parg) (whence : Z) : T unit :=
    t_reset_buffers c ;; on_b (b_unlock_file (tc_kind c) length offset whence).
End Tell.
