(** Final theorems about buffered streams on windows: C98. *)
From Coq Require Import ZArith Ascii String List Bool Lia.
From Verif Require Import M_Base M_Modes M_Registry M_Kernel M_World M_Raw M_Windows M_Buffered M_WinBuffered S_Bytes S_Raw S_Locks S_LockFile
  S_Open S_Buffered S_BufLine S_Append S_WinBuffered S_Demo P_Bytes P_Raw P_Close P_Frame P_LockFile P_Open P_Buffered P_BufOps P_BufRun P_BufLine
  C_Windows P_WinBuffered C_Buffered C_BufLine C_Append.
Import ListNotations.
Open Scope Z_scope.

(** * Running programs *)

Definition run_call (k : bkind) (c : bcall) (b : bstate) : rout * bstate :=
  match c with
  | Call op => run_bop k op b
  | CReadline n => blift OBytes (b_readline k n b)
  | CReadinto n => blift OBytes (b_readinto k n false b)
  | CReadinto1 n => blift OBytes (b_readinto k n true b)
  end.
Fixpoint run_calls (k : bkind) (l : list bcall) (b : bstate) : list rout * bstate :=
  match l with
  | [] => ([], b)
  | c :: r => let '(o, b1) := run_call k c b in let '(os, b2) := run_calls k r b1 in (o :: os, b2)
  end.
Definition vlift {A} (f : A -> rout) (x : res A * vstate) : rout * vstate :=
  match x with (Ok a, g) => (f a, g) | (Err e, g) => (OErr e, g) end.
Definition run_vcall (k : bkind) (c : bcall) (g : vstate) : rout * vstate :=
  let obytes (d : option (list Z)) := match d with Some d => OBytes d | None => ONone end in
  match c with
  | Call (BoRead n) => vlift obytes (vb_read k n g)
  | Call (BoRead1 n) => vlift obytes (vb_read1 k n g)
  | Call (BoPeek n) => vlift OBytes (vb_peek k n g)
  | Call (BoWrite d) => vlift OInt (vb_write k d g)
  | Call (BoSeek off wh) => vlift OInt (vb_seek k off wh g)
  | Call BoTell => vlift OInt (vb_tell k g)
  | Call BoSize => vlift OInt (vb_fsize k g)
  | Call BoFlush => vlift (fun _ => OUnit) (vb_flush k g)
  | Call (BoTruncate s) => vlift OInt (vb_truncate k s g)
  | CReadline n => vlift OBytes (vb_readline k n g)
  | CReadinto n => vlift OBytes (vb_readinto k n false g)
  | CReadinto1 n => vlift OBytes (vb_readinto k n true g)
  end.
Fixpoint run_vcalls (k : bkind) (l : list bcall) (g : vstate) : list rout * vstate :=
  match l with
  | [] => ([], g)
  | c :: r => let '(o, g1) := run_vcall k c g in let '(os, g2) := run_vcalls k r g1 in (o :: os, g2)
  end.

(** The same file opened on both systems: content, position, rights and outcomes of the calls are the same.  Space added to
    the file by the system is zero (NTFS).  The file never makes a call wait, and in append mode no call fails. *)
Record same_start (f : rawio) (w : world) (o : ofd) (i : inode) (v : wio) (x : wfile) : Prop := mkStart {
  ss_live : live f w o i;
  ss_open : v_closed v = false;
  ss_data : n_data i = x_data x;
  ss_pos : o_pos o = x_pos x;
  ss_app : o_app o = v_append v;
  ss_rd : f_readable f = v_readable v /\ (v_readable v = true -> o_rd o = true);
  ss_wr : f_writable f = v_writable v /\ (v_writable v = true -> o_wr o = true);
  ss_io : w_io w = x_io x;
  ss_zero : zeroing x;
  ss_again : ~ In (IoErr EAGAIN) (x_io x);
  ss_noerr : v_append v = true -> forall e, ~ In (IoErr e) (x_io x) }.

Lemma start_rb f w o i v x size (q : bool) : same_start f w o i v x -> 0 < size -> (q = true -> x_io x = []) ->
  Rb (o_uid o) q f v (fresh f size w) (vb_fresh v size x).
Proof.
  intros [] Hs Q. constructor; auto. exists o, i. destruct ss_rd0 as [R1 R2], ss_wr0 as [W1 W2].
  constructor; auto; intros F; [apply R2|apply W2]; [rewrite <- R1|rewrite <- W1]; exact F.
Qed.

Section Sim.
  Variables (u : uid) (q : bool) (f0 : rawio) (v0 : wio).
  Notation Rb := (Rb u q f0 v0).

  Lemma lift_at {A} (m1 : B A) (m2 : VB A) (h : A -> rout) b g : simat u q f0 v0 m1 m2 b g ->
    exists out b' g', blift h (m1 b) = (out, b') /\ vlift h (m2 g) = (out, g') /\ Rb b' g'.
  Proof. intros (r & b' & g' & -> & -> & H). destruct r as [a|e]; eexists _, b', g'; cbn; auto. Qed.

  Lemma call_sim k c b g : Rb b g -> (q = true \/ (forall s, c <> Call (BoTruncate s))) ->
    (exists out b' g', run_call k c b = (out, b') /\ run_vcall k c g = (out, g') /\ Rb b' g')
    \/ (exists s g', c = Call (BoTruncate s) /\ run_vcall k c g = (OErr EAssert, g')).
  Proof.
    intros H Q. destruct c as [[n|n|n|d|off wh| | | |s]|n|n|n]; cbn [run_call run_vcall run_bop].
    1-8,10-12: left; apply lift_at; first [apply sb_read|apply sb_read1|apply sb_peek|apply sb_write|apply sb_seek|apply sb_tell|apply sb_fsize
      |apply sb_flush|apply sb_readline|apply sb_readinto]; exact H.
    destruct Q as [Q|Q]; [|now destruct (Q s)]. destruct (st_truncate u q f0 v0 k s Q b g H) as [S|(g' & E)]; [left; now apply lift_at|].
    right. exists s, g'. split; [reflexivity|]. now rewrite E.
  Qed.

  Lemma calls_sim k : forall l b g outs2 g', Rb b g -> (q = true \/ no_truncation l) ->
    run_vcalls k l g = (outs2, g') -> ~ In (OErr EAssert) outs2 -> exists b', run_calls k l b = (outs2, b') /\ Rb b' g'.
  Proof.
    induction l as [|c l IH]; intros b g outs2 g' H Q E N; cbn [run_vcalls run_calls] in *.
    - injection E as <- <-. exists b. auto.
    - destruct (call_sim k c b g H) as [(out & b1 & g1 & E1 & E2 & H1)|(s & g1 & _ & E2)].
      { destruct Q as [Q|Q]; [now left|]. right. intros s ->. apply (Q s). now left. }
      + rewrite E2 in E. destruct (run_vcalls k l g1) as [outs g2] eqn:E3. injection E as <- <-.
        destruct (IH b1 g1 outs g2 H1) as (b' & E4 & H2); auto.
        { destruct Q as [Q|Q]; [now left|]. right. intros s X. apply (Q s). now right. }
        { intros X. apply N. now right. }
        exists b'. rewrite E1, E4. auto.
      + rewrite E2 in E. destruct (run_vcalls k l g1) as [outs g2]. injection E as <- <-. destruct N. now left.
  Qed.
End Sim.

Lemma run_calls_ops k : forall ops b, run_calls k (map Call ops) b = run_bops k ops b.
Proof. induction ops as [|op ops IH]; intros b; cbn [map run_calls run_bops run_call]; [reflexivity|]. destruct (run_bop k op b). now rewrite IH. Qed.
Lemma no_truncation_calls ops : no_truncate ops -> no_truncation (map Call ops).
Proof. intros N s X. apply in_map_iff in X as (op & [= ->] & X). exact (N s X). Qed.

(** * The same on both systems *)

Theorem C98_same_as_unix_partial : forall k f w o i v x size calls outs1 b' outs2 g',
  same_start f w o i v x -> 0 < size -> (no_truncation calls \/ x_io x = []) ->
  run_calls k calls (fresh f size w) = (outs1, b') -> run_vcalls k calls (vb_fresh v size x) = (outs2, g') ->
  ~ In (OErr EAssert) outs2 ->
  outs1 = outs2 /\ b_rbuf b' = vb_rbuf g' /\ b_rpos b' = vb_rpos g' /\ b_wbuf b' = vb_wbuf g'
  /\ exists o' i', live f (b_w b') o' i' /\ o_uid o' = o_uid o /\ n_data i' = x_data (vb_x g') /\ o_pos o' = x_pos (vb_x g').
Proof.
  intros k f w o i v x size calls outs1 b' outs2 g' S Hs Q E1 E2 N.
  set (q := match x_io x with [] => true | _ => false end).
  assert (Q1 : q = true -> x_io x = []) by (unfold q; destruct (x_io x); auto; discriminate).
  assert (Q2 : q = true \/ no_truncation calls) by (destruct Q as [Q|Q]; [now right|left; unfold q; now rewrite Q]).
  destruct (calls_sim _ q f v k calls _ _ outs2 g' (start_rb _ _ _ _ _ _ size q S Hs Q1) Q2 E2 N) as (b1 & E3 & [(o' & i' & T) H1 H2 H3 H4 H5 H6 H7]).
  rewrite E1 in E3. injection E3 as <- <-. repeat (split; [congruence|]). rewrite H6 in T. exists o', i'.
  split; [apply (tw_live _ _ _ _ _ _ _ _ T)|]. split; [apply (tw_uid _ _ _ _ _ _ _ _ T)|]. split; [apply (tw_data _ _ _ _ _ _ _ _ T)|apply (tw_pos _ _ _ _ _ _ _ _ T)].
Qed.

(** * A unix world for every file on windows *)

Definition twin_f (v : wio) : rawio := mkRio (Some 3) None false true (v_readable v) (v_writable v) (v_append v) true None 0.
Definition twin_o (v : wio) (x : wfile) : ofd := mkOfd (1, 10) (x_pos x) (v_readable v) (v_writable v) (v_append v) false false.
Definition twin_i (x : wfile) : inode := mkIno KReg (x_data x) false.
Definition twin_w (v : wio) (x : wfile) : world :=
  set_fds (demo (x_data x) (x_io x) [] []) (fun fd => if fd =? 3 then Some (twin_o v x) else None).

(** An open file: where space is added it is zero, no call would wait. *)
Record opened_on (v : wio) (x : wfile) : Prop := mkOpened {
  on_open : v_closed v = false;
  on_pos : 0 <= x_pos x;
  on_zero : zeroing x;
  on_again : ~ In (IoErr EAGAIN) (x_io x);
  on_noerr : v_append v = true -> forall e, ~ In (IoErr e) (x_io x) }.

Lemma twin_start v x : opened_on v x -> same_start (twin_f v) (twin_w v x) (twin_o v x) (twin_i x) v x.
Proof. intros []. constructor; auto. now constructor. Qed.

(** What a stream of this kind is opened for. *)
Definition opened_for (k : bkind) (v : wio) : Prop := (k <> BWriter -> v_readable v = true) /\ (k <> BReader -> v_writable v = true).

Lemma twin_setting k v x size : opened_on v x -> opened_for k v -> 0 < size -> v_append v = false -> x_no_err x ->
  setting k (twin_f v) size (twin_w v x) (twin_o v x) (twin_i x).
Proof.
  intros [] [R W] Hs A N. constructor; auto; cbn.
  - now constructor.
Qed.

(** The content of the file after the calls and a flush, on windows, given what it is on unix. *)
Lemma flush_twin k u q f v b g b'' c : Rb u q f v b g -> b_flush k b = (Ok tt, b'') -> holds_file (b_w b'') u c ->
  exists g'', vb_flush k g = (Ok tt, g'') /\ x_data (vb_x g'') = c.
Proof.
  intros H E (i & Ei & <-). destruct (sb_flush u q f v k b g H) as (r & b1 & g1 & E1 & E2 & [(o' & i' & T) _ _ _ _ _ _ _]).
  rewrite E in E1. injection E1 as <- <-. exists g1. split; [exact E2|]. rewrite <- (tw_data _ _ _ _ _ _ _ _ T).
  pose proof (lv_ino _ _ _ _ (tw_live _ _ _ _ _ _ _ _ T)) as X. rewrite (tw_uid _ _ _ _ _ _ _ _ T) in X. congruence.
Qed.

Lemma run_twin k v x size calls outs g : opened_on v x -> 0 < size -> (no_truncation calls \/ x_io x = []) ->
  run_vcalls k calls (vb_fresh v size x) = (outs, g) -> ~ In (OErr EAssert) outs ->
  exists b q, run_calls k calls (fresh (twin_f v) size (twin_w v x)) = (outs, b) /\ Rb (1, 10) q (twin_f v) v b g /\ (q = true -> x_io x = []).
Proof.
  intros O Hs Q E N. set (q := match x_io x with [] => true | _ => false end).
  assert (Q1 : q = true -> x_io x = []) by (unfold q; destruct (x_io x); auto; discriminate).
  assert (Q2 : q = true \/ no_truncation calls) by (destruct Q as [Q|Q]; [now right|left; unfold q; now rewrite Q]).
  destruct (calls_sim _ q (twin_f v) v k calls _ _ outs g (start_rb _ _ _ _ _ _ size q (twin_start _ _ O) Hs Q1) Q2 E N) as (b & E1 & H).
  exists b, q. auto.
Qed.

(** * Buffered streams on windows are byte arrays *)

Theorem C98_byte_array_partial : forall k v x size ops outs g,
  opened_on v x -> opened_for k v -> 0 < size -> v_append v = false -> (forall e, ~ In (IoErr e) (x_io x)) ->
  (no_truncate ops \/ x_io x = []) ->
  run_vcalls k (map Call ops) (vb_fresh v size x) = (outs, g) -> ~ In (OErr EAssert) outs ->
  (k = BRandom -> disciplined true (combine ops outs)) ->
  exists c p, baruns (acc_kind k) (x_data x, x_pos x) ops outs (c, p)
    /\ exists g', vb_flush k g = (Ok tt, g') /\ x_data (vb_x g') = c.
Proof.
  intros k v x size ops outs g O F Hs A Ne Q E N D.
  assert (Q' : no_truncation (map Call ops) \/ x_io x = []) by (destruct Q; [left; now apply no_truncation_calls|now right]).
  destruct (run_twin k v x size _ outs g O Hs Q' E N) as (b & q & E1 & H & _). rewrite run_calls_ops in E1.
  destruct (C31_buffered_refines_byte_array_partial k _ size ops _ _ _ outs b (twin_setting k v x size O F Hs A Ne) E1 D) as (c & p & X & b'' & Ef & Hf).
  exists c, p. split; [exact X|]. exact (flush_twin _ _ _ _ _ _ _ _ _ H Ef Hf).
Qed.

(** Lines and readinto, after any such program. *)
Theorem C98_readline : forall k v x size ops outs g,
  k <> BWriter -> opened_on v x -> opened_for k v -> 0 < size -> v_append v = false -> (forall e, ~ In (IoErr e) (x_io x)) ->
  (no_truncate ops \/ x_io x = []) ->
  run_vcalls k (map Call ops) (vb_fresh v size x) = (outs, g) -> ~ In (OErr EAssert) outs ->
  (k = BRandom -> disciplined true (combine ops outs)) ->
  exists c p, baruns (acc_kind k) (x_data x, x_pos x) ops outs (c, p) /\ (exists l, line_at c p l) /\
    forall limit l, line_at c p l -> exists d g', vb_readline k limit g = (Ok d, g') /\ line_got limit l d.
Proof.
  intros k v x size ops outs g K O F Hs A Ne Q E N D.
  assert (Q' : no_truncation (map Call ops) \/ x_io x = []) by (destruct Q; [left; now apply no_truncation_calls|now right]).
  destruct (run_twin k v x size _ outs g O Hs Q' E N) as (b & q & E1 & H & _). rewrite run_calls_ops in E1.
  destruct (C52_readline k (twin_w v x) (twin_o v x) (twin_i x) (twin_f v) size ops outs b K) as (c & p & X & L & G).
  { split; [now apply twin_setting|]. auto. }
  exists c, p. split; [exact X|]. split; [exact L|]. intros limit l Hl. destruct (G limit l Hl) as (d & b' & E2 & Gd & _).
  destruct (sb_readline _ _ _ _ k limit b g H) as (r & b1 & g1 & E3 & E4 & _). rewrite E2 in E3. injection E3 as <- <-. exists d, g1. auto.
Qed.
Theorem C98_readinto_partial : forall k v x size ops outs g,
  k <> BWriter -> opened_on v x -> opened_for k v -> 0 < size -> v_append v = false -> (forall e, ~ In (IoErr e) (x_io x)) ->
  (no_truncate ops \/ x_io x = []) ->
  run_vcalls k (map Call ops) (vb_fresh v size x) = (outs, g) -> ~ In (OErr EAssert) outs ->
  (k = BRandom -> disciplined true (combine ops outs)) ->
  exists c p, baruns (acc_kind k) (x_data x, x_pos x) ops outs (c, p) /\
    forall n, 0 <= n -> exists r g', vb_readinto k n false g = (r, g') /\ (r = Err EValue \/ exists d, r = Ok d /\ filled n c p d).
Proof.
  intros k v x size ops outs g K O F Hs A Ne Q E N D.
  assert (Q' : no_truncation (map Call ops) \/ x_io x = []) by (destruct Q; [left; now apply no_truncation_calls|now right]).
  destruct (run_twin k v x size _ outs g O Hs Q' E N) as (b & q & E1 & H & _). rewrite run_calls_ops in E1.
  destruct (C53_readinto_or_error_partial k (twin_w v x) (twin_o v x) (twin_i x) (twin_f v) size ops outs b K) as (c & p & X & G).
  { split; [now apply twin_setting|]. auto. }
  exists c, p. split; [exact X|]. intros n Hn. destruct (G n Hn) as (r & b' & E2 & Gd).
  destruct (sb_readinto _ _ _ _ k n false b g H) as (r' & b1 & g1 & E3 & E4 & _). rewrite E2 in E3. injection E3 as <- <-. exists r, g1.
  split; [exact E4|]. destruct Gd as [->|(d & -> & Fd & _)]; [now left|right; eauto].
Qed.

(** In append mode everything written ends up behind what the file held, in order. *)
Theorem C98_append : forall k v x size ops outs g,
  k <> BReader -> opened_on v x -> opened_for k v -> 0 < size -> v_append v = true -> no_truncate ops ->
  run_vcalls k (map Call ops) (vb_fresh v size x) = (outs, g) -> ~ In (OErr EAssert) outs ->
  (k = BRandom -> disciplined true (combine ops outs)) ->
  exists g', vb_flush k g = (Ok tt, g') /\ x_data (vb_x g') = x_data x ++ handed_over ops.
Proof.
  intros k v x size ops outs g K O F Hs A Nt E N D.
  destruct (run_twin k v x size _ outs g O Hs (or_introl (no_truncation_calls _ Nt)) E N) as (b & q & E1 & H & _). rewrite run_calls_ops in E1.
  destruct (C68_all_bytes_at_the_end k (twin_f v) size ops (twin_w v x) (twin_o v x) (twin_i x) outs b) as (b'' & Ef & Hf); auto.
  { destruct O, F as [R W]. constructor; auto. now constructor. }
  exact (flush_twin _ _ _ _ _ _ _ _ _ H Ef Hf).
Qed.

(** System calls failing: nothing accepted is lost, and what is written is completed by the next flush that succeeds. *)
Theorem C98_failing_flush : forall v x size ops outs g,
  opened_on v x -> v_writable v = true -> 0 < size -> v_append v = false -> no_truncate ops ->
  run_vcalls BWriter (map Call ops) (vb_fresh v size x) = (outs, g) -> ~ In (OErr EAssert) outs ->
  exists c p, wruns (x_data x, x_pos x) ops outs (c, p)
    /\ x_pos (vb_x g) + len (vb_wbuf g) = p /\ stored_at (x_data (vb_x g)) (x_pos (vb_x g)) (vb_wbuf g) c
    /\ forall r g', vb_flush BWriter g = (r, g') ->
         stored_at (x_data (vb_x g')) (x_pos (vb_x g')) (vb_wbuf g') c /\ (r = Ok tt -> x_data (vb_x g') = c /\ vb_wbuf g' = []).
Proof.
  intros v x size ops outs g O Wv Hs A Nt E N.
  destruct (run_twin BWriter v x size _ outs g O Hs (or_introl (no_truncation_calls _ Nt)) E N) as (b & q & E1 & H & _). rewrite run_calls_ops in E1.
  destruct (C32_failing_flush (twin_f v) size ops (twin_w v x) (twin_o v x) (twin_i x) outs b) as (c & p & X & (i1 & o1 & Ei & Eo & P & S) & Fl); auto.
  { destruct O. now constructor. }
  assert (Tw : forall b g i o, Rb (1, 10) q (twin_f v) v b g -> w_inodes (b_w b) (1, 10) = Some i -> w_fds (b_w b) (fd_of (twin_f v)) = Some o ->
     n_data i = x_data (vb_x g) /\ o_pos o = x_pos (vb_x g) /\ b_wbuf b = vb_wbuf g).
  { intros b0 g0 i0 o0 [(o' & i' & T) _ _ _ Wb _ Rf _] X1 X2. rewrite Rf in T. pose proof (tw_live _ _ _ _ _ _ _ _ T) as L.
    pose proof (lv_fd _ _ _ _ L) as Y2. rewrite X2 in Y2. injection Y2 as <-. pose proof (lv_ino _ _ _ _ L) as Y1. rewrite (tw_uid _ _ _ _ _ _ _ _ T), X1 in Y1.
    injection Y1 as <-. split; [apply (tw_data _ _ _ _ _ _ _ _ T)|]. split; [apply (tw_pos _ _ _ _ _ _ _ _ T)|auto]. }
  destruct (Tw _ _ _ _ H Ei Eo) as (D1 & P1 & W1). rewrite D1, P1, W1 in *.
  exists c, p. split; [exact X|]. split; [exact P|]. split; [exact S|]. intros r g' Ef.
  destruct (sb_flush _ _ _ _ BWriter b g H) as (r' & b1 & g1 & E3 & E4 & H1). rewrite Ef in E4. injection E4 as <- <-.
  destruct (Fl r b1 E3) as (i2 & o2 & Ei2 & Eo2 & S2 & Fin). destruct (Tw _ _ _ _ H1 Ei2 Eo2) as (D2 & P2 & W2). rewrite D2, P2, W2 in *. auto.
Qed.

(** * What is not the same *)

(** Both systems give the same results and the same file. *)
Definition same_results : Prop := forall k f w o i v x size calls,
  same_start f w o i v x -> 0 < size -> x_io x = [] ->
  fst (run_calls k calls (fresh f size w)) = fst (run_vcalls k calls (vb_fresh v size x)).
Definition rw : wio := mkWio true true false false.
Definition empty_file : wfile := mkX [] 0 [] (fun _ => 0).
Lemma empty_opened : opened_on rw empty_file.
Proof. constructor; [reflexivity|cbn; lia|now intros n|intros []|discriminate]. Qed.

(** truncate() to 8192 bytes: an assertion fails on windows.  The stream is moved, so that the next bytes are written
    after the new end. *)
Definition grown : list bcall := [Call (BoTruncate (Some 8192)); Call (BoWrite [7]); Call BoFlush].
Theorem C98_truncate_refuted : ~ same_results.
Proof.
  intros H. specialize (H BWriter _ _ _ _ _ _ 8 grown (twin_start _ _ empty_opened) ltac:(lia) eq_refl).
  assert (A : hd OUnit (fst (run_calls BWriter grown (fresh (twin_f rw) 8 (twin_w rw empty_file)))) = OInt 8192) by (vm_compute; reflexivity).
  assert (B : hd OUnit (fst (run_vcalls BWriter grown (vb_fresh rw 8 empty_file))) = OErr EAssert) by (vm_compute; reflexivity).
  rewrite H, B in A. discriminate A.
Qed.
Theorem C98_write_after_truncate_refuted :
  let b := snd (run_calls BWriter grown (fresh (twin_f rw) 8 (twin_w rw empty_file))) in
  let g := snd (run_vcalls BWriter grown (vb_fresh rw 8 empty_file)) in
  (exists i, w_inodes (b_w b) (1, 10) = Some i /\ byte_at (n_data i) 0 = 7 /\ len (n_data i) = 8192)
  /\ byte_at (x_data (vb_x g)) 0 = 0 /\ byte_at (x_data (vb_x g)) 8192 = 7 /\ len (x_data (vb_x g)) = 8193.
Proof. cbv zeta. split; [eexists; split; [vm_compute; reflexivity|split; vm_compute; reflexivity]|]. split; [|split]; vm_compute; reflexivity. Qed.

Definition demo_calls : list bcall :=
  [CReadline (-1); Call BoTell; Call (BoWrite [9;9]); Call (BoSeek 1 0); CReadinto 3; CReadinto1 9; Call BoSize; Call (BoPeek 1)].
Example C98_example : (* short counts *)
  let x := mkX [1;2;10;4;5;6] 0 [IoShort 2; IoFull; IoShort 1] (fun _ => 0) in
  fst (run_vcalls BRandom demo_calls (vb_fresh rw 4 x))
  = [OBytes [1;2;10]; OInt 3; OInt 2; OInt 1; OBytes [2;10;9]; OBytes [9;6]; OInt 6; OBytes []]
  /\ fst (run_calls BRandom demo_calls (fresh (twin_f rw) 4 (twin_w rw x))) = fst (run_vcalls BRandom demo_calls (vb_fresh rw 4 x)).
Proof. vm_compute. auto. Qed.
Example C98_failure_example : (* the disk is full, then not any more *)
  let x := mkX [1;2;3] 0 [IoShort 2; IoErr ENOSPC] (fun _ => 0) in
  let '(outs, g) := run_vcalls BWriter [Call (BoWrite [7;8;9]); Call BoFlush] (vb_fresh (mkWio false true false false) 4 x) in
  let '(outs2, g2) := run_vcalls BWriter [Call BoFlush] g in
  outs = [OInt 3; OErr (EOS ENOSPC)] /\ x_data (vb_x g) = [7;8;3] /\ outs2 = [OUnit] /\ x_data (vb_x g2) = [7;8;9].
Proof. vm_compute. auto. Qed.
Example C98_append_example :
  let '(outs, g) := run_vcalls BRandom [Call (BoSeek 0 0); Call (BoWrite [7]); Call (BoSeek 0 0); Call (BoRead (Some 1)); Call (BoWrite [8]); Call BoFlush]
     (vb_fresh (mkWio true true true false) 4 (mkX [1;2] 0 [] (fun _ => 0))) in
  outs = [OInt 0; OInt 1; OInt 0; OBytes [1]; OInt 1; OUnit] /\ x_data (vb_x g) = [1;2;7;8].
Proof. vm_compute. auto. Qed.

Print Assumptions C98_same_as_unix_partial.
Print Assumptions C98_byte_array_partial.
Print Assumptions C98_readline.
Print Assumptions C98_readinto_partial.
Print Assumptions C98_append.
Print Assumptions C98_failing_flush.
Print Assumptions C98_truncate_refuted.
Print Assumptions C98_write_after_truncate_refuted.
