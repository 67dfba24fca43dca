(** Final theorems: whole-file reads and appends with locking find complete contents only (C91). *)
From Coq Require Import ZArith Ascii String List Bool Lia.
From Verif Require Import M_Base M_Modes M_Registry M_Kernel M_World M_Raw M_Open M_Buffered M_Files M_Text M_TextFiles
  S_Locks S_LockFile S_Open S_Files S_Codecs S_Text S_TextFiles S_Snapshot S_Demo C_Files C_TextFiles.
Import ListNotations.
Open Scope Z_scope.
Open Scope list_scope.

Lemma guarded_after complete pid u : forall past rest c K, guarded complete pid u c K (past ++ rest) ->
  complete (content_after past c) \/ kept_out false pid u (locks_after past K).
Proof.
  induction past as [|ev past IH]; intros rest c K H.
  - destruct rest; apply H.
  - destruct H as [_ H]. exact (IH _ _ _ H).
Qed.
Lemma kept_out_writer pid u K : kept_out false pid u K -> kept_out true pid u K.
Proof. intros (s & b & A & B & C & D & E). exists s, b. split; [exact A|]. split; [exact B|]. split; [exact C|]. split; [discriminate|exact E]. Qed.

Lemma content_not_pipe w p c : has_content w p c -> not_pipe w p.
Proof. intros (u & i & A & B & C & _) u' i' D E. rewrite A in D. injection D as <-. rewrite B in E. injection E as <-. congruence. Qed.
Lemma content_fun w p c c' : has_content w p c -> has_content w p c' -> c = c'.
Proof. intros (u & i & A & B & _ & <-) (u' & i' & D & E & _ & <-). congruence. Qed.

(** read_from_file() with locking returns complete contents only. *)
Theorem C91_read : forall complete py_u a p u c w d w',
  fa_name a = NPath p -> fa_locking a = true -> no_block w ->
  w_names w p = Some u -> has_content w p c -> guarded complete (w_pid w) u c (w_kern w) (w_env w) ->
  read_from_file py_u a w = (Ok d, w') -> complete d /\ has_content w' p d.
Proof.
  intros complete py_u a p u c w d w' Hn Hl Nb Hu Hc G H.
  destruct (read_moment _ _ _ _ _ _ Hn (content_not_pipe _ _ _ Hc) Nb H) as (past & c1 & A1 & _ & A3 & A4 & A5 & A6).
  rewrite <- (content_fun _ _ _ _ Hc A3) in A4. rewrite A1 in G. apply guarded_after in G.
  split; [|exact A5]. destruct G as [G|G]; [congruence|]. exfalso. exact (A6 Hl u Hu G).
Qed.

(** The same for text: what is returned is the text of a complete content. *)
Theorem C91_read_text : forall complete py_u a p u c w d w',
  fa_name (ta_file a) = NPath p -> fa_locking (ta_file a) = true -> no_block w -> plain_codec (ta_codec a) ->
  w_names w p = Some u -> has_content w p c -> guarded complete (w_pid w) u c (w_kern w) (w_env w) ->
  read_text py_u a w = (Ok d, w') -> exists c', complete c' /\ text_of (ta_codec a) (ta_newline a) c' d.
Proof.
  intros complete py_u a p u c w d w' Hn Hl Nb Pc Hu Hc G H.
  destruct (text_read_moment _ _ _ _ _ _ Hn (content_not_pipe _ _ _ Hc) Nb Pc H) as (past & c1 & A1 & _ & A3 & A4 & A5 & A6).
  rewrite <- (content_fun _ _ _ _ Hc A3) in A4. rewrite A1 in G. apply guarded_after in G.
  destruct G as [G|G]; [eauto|]. exfalso. exact (A6 Hl u Hu G).
Qed.

(** append_to_file() with locking adds to complete contents only; if it fails to open or to lock the file, [rsopen] says so. *)
Theorem C91_append : forall complete py_u has_fdatasync a p u c d sync must_not_create w r w',
  fa_name a = NPath p -> fa_locking a = true ->
  w_names w p = Some u -> has_content w p c -> guarded complete (w_pid w) u c (w_kern w) (w_env w) ->
  append_to_file py_u has_fdatasync a d sync must_not_create w = (r, w') ->
  (exists e, r = Err e /\ rsopen py_u (open_args a (append_mode must_not_create)) w = (Err e, w'))
  \/ exists c' x y, complete c' /\ d = x ++ y /\ has_content w' p (c' ++ x) /\ (r = Ok tt -> fa_buffering a <> Some 0 -> y = []).
Proof.
  intros complete py_u h a p u c d sync mn w r w' Hn Hl Hu Hc G H.
  destruct (append_moment _ _ _ _ _ _ _ _ _ _ Hn (content_not_pipe _ _ _ Hc) H)
    as [X|(past & c1 & x & y & A1 & _ & A3 & A4 & A5 & _ & A7 & _ & A9)]; [now left|right].
  rewrite A1 in G. apply guarded_after in G.
  assert (c1 = c) as ->.
  { destruct A3 as [A3|[A3 _]]; [exact (content_fun _ _ _ _ A3 Hc)|congruence]. }
  destruct G as [G|G]; [exists (content_after past c), x, y; auto|].
  exfalso. exact (A9 Hl u Hu (kept_out_writer _ _ _ G)).
Qed.

(** * Examples *)

Definition locked_read : fileargs := mkFA (NPath (name "f")) None false false false true PNone.
(** Process 200 is writing [1;2;3]: it has written [1], and will have let go after the next wait but one. *)
Definition half : world :=
  demo [1] [] [mkEv 1 None None (Some [1; 2]); mkEv 1 (Some []) None (Some [1; 2; 3])] [mkSeg 200 (1, 10) false 0 None].
Lemma half_guarded : guarded (fun c => c = [1; 2; 3]) (w_pid half) (1, 10) [1] (w_kern half) (w_env half).
Proof.
  assert (L : kept_out false 100 (1, 10) [mkSeg 200 (1, 10) false 0 None]).
  { exists (mkSeg 200 (1, 10) false 0 None), 0. cbn. split; [now left|]. split; [discriminate|]. split; [reflexivity|].
    split; [reflexivity|]. split; [lia|]. split; [lia|exact I]. }
  cbn. auto 6.
Qed.
Example C91_waits : fst (read_from_file false locked_read half) = Ok [1; 2; 3].
Proof. vm_compute. reflexivity. Qed.

(** Without locking the reader sees what is there. *)
Lemma fst_out {A B} (x : A * B) a : fst x = a -> x = (a, snd x).
Proof. intros <-. now destruct x. Qed.
Theorem C91_without_locking_refuted : exists complete w d w',
  guarded complete (w_pid w) (1, 10) [1] (w_kern w) (w_env w) /\ has_content w (name "f") [1] /\ no_block w
  /\ read_from_file false (mkFA (NPath (name "f")) None false false false false PNone) w = (Ok d, w') /\ ~ complete d.
Proof.
  exists (fun c => c = [1; 2; 3]), half, [1]. eexists.
  split; [exact half_guarded|]. split. { exists (1, 10), (mkIno KReg [1] false). repeat split; reflexivity. }
  split. { split; intros []. }
  split; [apply fst_out; vm_compute; reflexivity|discriminate].
Qed.

(** The other process, with its own descriptors and registry. *)
Definition elsewhere (pid : Z) (w : world) : world :=
  mkW (w_names w) (w_inodes w) (fun _ => None) [3; 4; 5] (w_newino w) (w_kern w) (mkReg pid empty_map) pid [] [] (w_clock w) (w_opts w) (w_blk w).
(** A file that write_to_file() is creating: between open() and lock_file() it can be locked by the reader, and is empty. *)
Definition creation : raw_kwargs :=
  match rsopen_prelude false (NPath (name "g")) (write_mode true false) None None true None false false false false false with
  | Ok (rk, _) => rk
  | Err _ => kw "g" false false false
  end.
Theorem C91_creation_refuted : exists rk ek f w w1 w2,
  rsopen_prelude false (NPath (name "g")) (write_mode true false) None None true None false false false false false = Ok (rk, ek)
  /\ w_names w (name "g") = None /\ raw_open rk w = (Ok f, w1)
  /\ read_from_file false (mkFA (NPath (name "g")) None false false false true (PInt 0)) (elsewhere 200 w1) = (Ok [], w2).
Proof.
  exists creation. eexists. eexists. exists (demo [1] [] [] []), (snd (raw_open creation (demo [1] [] [] []))). eexists.
  split; [vm_compute; reflexivity|]. split; [reflexivity|].
  split; apply fst_out; vm_compute; reflexivity.
Qed.

Print Assumptions C91_read.
Print Assumptions C91_read_text.
Print Assumptions C91_append.
Print Assumptions C91_without_locking_refuted.
Print Assumptions C91_creation_refuted.
