(** Final theorems about the layers of a stream: where the raw stream is when the buffered one is flushed, and what the
    methods taken from the raw stream do (C96). *)
From Coq Require Import ZArith Ascii String List Bool Lia.
From Verif Require Import M_Base M_Modes M_Registry M_Kernel M_World M_Raw M_Buffered M_BufLines M_Newline M_Text M_Layers
  S_Bytes S_Raw S_Locks S_LockFile S_Open S_Buffered S_BufLine S_Demo S_Newline S_Text S_Codecs P_Bytes P_Raw P_Close P_Frame P_LockFile P_Open
  P_Buffered P_BufOps P_BufRun P_BufLine P_Newline P_Decode P_TextBase P_Codecs C_Buffered C_BufLine C_Text.
Import ListNotations.
Open Scope Z_scope.

(** ** The documented effect of flush() *)

(** rsiobase.py:50-60: "all bytes written get pushed at least from the application to the kernel I/O cache, and [...] the
    file pointer of the underlying low level stream becomes the same as the 'virtual' file position returned by tell()". *)
Record flushed_to (k : bkind) (u : uid) (b : bstate) (c : list Z) (p q : Z) : Prop := mkFlushed {
  fl_file : holds_file (b_w b) u c;
  fl_tell : fst (b_tell k b) = Ok p;
  fl_raw : fst (b_raw_tell b) = Ok q }.

Lemma raw_tell_rep k b o i c p : rep k b o i c p -> fst (b_raw_tell b) = Ok (o_pos o).
Proof. intros R. unfold b_raw_tell, on_raw. now rewrite (raw_tell_live _ _ _ _ (rp_live _ _ _ _ _ _ R)). Qed.
Lemma flat_flushed k b o i c p : rep k b o i c p -> b_wbuf b = [] -> flushed_to k (o_uid o) b c p (p + len (unread b)).
Proof.
  intros R W. destruct (rep_flat _ _ _ _ _ _ R W) as [Hc Ho]. constructor.
  - exists i. split; [apply (lv_ino _ _ _ _ (rp_live _ _ _ _ _ _ R))|exact Hc].
  - destruct (b_tell_ok k b o i c p R (epos_clean _ _ _ W)) as (b' & -> & _). reflexivity.
  - rewrite <- Ho. eapply raw_tell_rep; eauto.
Qed.
Lemma in_flushed k b o i c p : rep k b o i c p -> p <= p + len (unread b) <= Z.max p (len c).
Proof.
  intros R. pose proof (len_nonneg (unread b)). destruct (rp_slice _ _ _ _ _ _ R) as [[E|E] _]; [rewrite E, len_nil|]; lia.
Qed.

Lemma runs_app a : forall ops1 outs1 s s1 ops2 outs2 s2, baruns a s ops1 outs1 s1 -> baruns a s1 ops2 outs2 s2 ->
  baruns a s (ops1 ++ ops2) (outs1 ++ outs2) s2.
Proof. intros ops1 outs1 s s1 ops2 outs2 s2 R. induction R; intros R2; cbn [List.app]; auto. eapply BAR_cons; eauto. Qed.

(** Whatever was done with the stream, flush() pushes everything and the two positions differ by what was read ahead:
    nothing at all for a stream that is only written. *)
Theorem C96_flush_partial : forall k w o i f size ops outs b, reached k w o i f size ops outs b ->
  exists c p q b', baruns (acc_kind k) (n_data i, o_pos o) ops outs (c, p) /\ b_flush k b = (Ok tt, b')
    /\ flushed_to k (o_uid o) b' c p q /\ p <= q <= Z.max p (len c) /\ (k = BWriter -> q = p).
Proof.
  intros k w o i f size ops outs b H. destruct (reached_rep _ _ _ _ _ _ _ _ _ H) as (o' & i' & c & p & R & Ap & T & P & U & _ & X).
  destruct (b_flush_ok False k b o' i' c p R T) as (r & b' & o2 & i2 & E & [R2 V2 _ _ _ [[-> W]|[[] _]]]).
  exists c, p, (p + len (unread b')), b'. split; [exact X|]. split; [exact E|]. split.
  - rewrite <- U, <- (so_uid _ _ (ev_o _ _ _ _ V2)). now apply (flat_flushed _ _ _ i2).
  - split; [apply (in_flushed _ _ _ _ _ _ R2)|]. intros ->. rewrite (unread_nil _ (rp_nord _ _ _ _ _ _ R2 eq_refl)), len_nil. lia.
Qed.
(** A stream that reads and writes: the two are the same after a write. *)
Theorem C96_flush_after_write : forall k w o i f size ops outs b d r b1, k <> BReader -> reached k w o i f size ops outs b ->
  b_write k d b = (r, b1) ->
  exists c p b', baruns (acc_kind k) (n_data i, o_pos o) (ops ++ [BoWrite d]) (outs ++ [OInt (len d)]) (c, p)
    /\ r = Ok (len d) /\ b_flush k b1 = (Ok tt, b') /\ flushed_to k (o_uid o) b' c p p.
Proof.
  intros k w o i f size ops outs b d r b1 K H Ew. destruct (reached_rep _ _ _ _ _ _ _ _ _ H) as (o' & i' & c & p & R & Ap & T & P & U & _ & X).
  destruct (b_write_ok False k b o' i' c p d R T (not_reader _ K)) as (r1 & b1' & o1 & i1 & c1 & p1 & E1 & R1 & V1 & Er & Wr & _).
  rewrite E1 in Ew. injection Ew as -> ->. rewrite Ap in Wr.
  destruct (b_flush_ok False k b1 o1 i1 c1 p1 R1 (tameb_evolves _ _ _ _ _ V1 T)) as (r' & b' & o2 & i2 & E & [R2 V2 Er2 _ _ [[-> W]|[[] _]]]).
  exists c1, p1, b'.
  assert (Y : r = Ok (len d) /\ c1 = write_at c (Z.to_nat p) d /\ p1 = p + len d) by (destruct Wr; try contradiction; auto).
  destruct Y as (-> & -> & ->).
  split; [|split; [reflexivity|]; split; [exact E|]].
  - eapply runs_app; [exact X|]. eapply BAR_cons; [|constructor]. apply BA_write; [destruct k; [congruence|reflexivity|reflexivity]|].
    apply stored_write, (rp_nn _ _ _ _ _ _ R).
  - assert (Q : unread b' = []) by (apply unread_nil; congruence).
    pose proof (flat_flushed _ _ _ _ _ _ R2 W) as G. rewrite Q, len_nil, Z.add_0_r in G.
    rewrite <- U, <- (so_uid _ _ (ev_o _ _ _ _ V1)), <- (so_uid _ _ (ev_o _ _ _ _ V2)). exact G.
Qed.
(** What lock_file() and unlock_file() begin with does what flush() promises, for every stream. *)
Theorem C96_reset_buffers : forall k w o i f size ops outs b, reached k w o i f size ops outs b ->
  exists c p b', baruns (acc_kind k) (n_data i, o_pos o) ops outs (c, p) /\ reset_buffers k b = (Ok tt, b')
    /\ flushed_to k (o_uid o) b' c p p.
Proof.
  intros k w o i f size ops outs b H. destruct (reached_rep _ _ _ _ _ _ _ _ _ H) as (o' & i' & c & p & R & Ap & T & P & U & _ & X).
  destruct (reset_ok False k b o' i' c p R T) as (r & b' & o2 & i2 & E & V & R2 & [(-> & Er & Ew & _)|([] & _)]).
  exists c, p, b'. split; [exact X|]. split; [exact E|]. pose proof (flat_flushed _ _ _ _ _ _ R2 Ew) as G.
  rewrite (unread_nil _ Er), len_nil, Z.add_0_r in G. rewrite <- U, <- (so_uid _ _ (ev_o _ _ _ _ V)). exact G.
Qed.

(** flush() does not: false of a stream that has read. *)
Definition flush_as_documented : Prop := forall k w o i f size ops outs b b', reached k w o i f size ops outs b ->
  b_flush k b = (Ok tt, b') -> fst (b_raw_tell b') = fst (b_tell k b').
Theorem C96_flush_refuted : ~ flush_as_documented.
Proof.
  intros H. destruct demo_reader as (f & w & o & i & Eo & S & D & Po & _).
  specialize (H BReader w o i f 4 [BoRead (Some 1)]).
  destruct (run_bops BReader [BoRead (Some 1)] (fresh f 4 w)) as [outs b] eqn:E.
  destruct (b_flush BReader b) as [r b'] eqn:E2.
  assert (X : r = Ok tt /\ fst (b_raw_tell b') = Ok 4 /\ fst (b_tell BReader b') = Ok 1).
  { vm_compute in Eo. injection Eo as <- <-. vm_compute in E. injection E as <- <-. vm_compute in E2. injection E2 as <- <-. vm_compute. auto. }
  destruct X as (-> & X1 & X2).
  specialize (H outs b b' ltac:(split; [exact S|split; [exact E|discriminate]]) E2). congruence.
Qed.

(** ** readall() *)

(** It gives what the file has after the position of the raw stream... *)
Theorem C96_readall_partial : forall k w o i f size ops outs b, k <> BWriter -> reached k w o i f size ops outs b ->
  exists c p q d b1 b2, baruns (acc_kind k) (n_data i, o_pos o) ops outs (c, p) /\ b_flush k b = (Ok tt, b1)
    /\ flushed_to k (o_uid o) b1 c p q /\ b_readall b1 = (Ok (Some d), b2) /\ rest_from c q d.
Proof.
  intros k w o i f size ops outs b K H. destruct (reached_rep _ _ _ _ _ _ _ _ _ H) as (o' & i' & c & p & R & Ap & T & P & U & _ & X).
  destruct (b_flush_ok False k b o' i' c p R T) as (r & b' & o2 & i2 & E & [R2 V2 _ _ _ [[-> W]|[[] _]]]).
  destruct (rep_flat _ _ _ _ _ _ R2 W) as [Hc Ho].
  destruct (raw_readall_ok False (b_raw b') (b_w b') o2 i2 (rp_live _ _ _ _ _ _ R2)) as (r2 & w2 & o3 & E3 & _ & _ & _ & _ & _ & _ & _ & [(-> & _)|([] & _)]).
  { apply (no_epipe_evolves _ _ _ _ V2 P). } { apply tame_tame_rd. exact (tameb_evolves _ _ _ _ _ V2 T). } { apply (rp_rd _ _ _ _ _ _ R2), not_writer, K. }
  eexists c, p, (p + len (unread b')), _, b', _. split; [exact X|]. split; [exact E|]. split.
  { rewrite <- U, <- (so_uid _ _ (ev_o _ _ _ _ V2)). now apply (flat_flushed _ _ _ i2). }
  split; [unfold b_readall, on_raw; rewrite E3; reflexivity|]. rewrite Hc, Ho. apply rest_from_skipn.
  pose proof (rp_nn _ _ _ _ _ _ R2). pose proof (len_nonneg (unread b')). lia.
Qed.
(** ... which is the rest of the file when the buffers have just been reset. *)
Theorem C96_readall_after_reset : forall k w o i f size ops outs b, k <> BWriter -> reached k w o i f size ops outs b ->
  exists c p d b1 b2, baruns (acc_kind k) (n_data i, o_pos o) ops outs (c, p) /\ reset_buffers k b = (Ok tt, b1)
    /\ b_readall b1 = (Ok (Some d), b2) /\ rest_from c p d.
Proof.
  intros k w o i f size ops outs b K H. destruct (reached_rep _ _ _ _ _ _ _ _ _ H) as (o' & i' & c & p & R & Ap & T & P & U & _ & X).
  destruct (reset_ok False k b o' i' c p R T) as (r & b' & o2 & i2 & E & V & R2 & [(-> & Er & Ew & Hc & Ho)|([] & _)]).
  destruct (raw_readall_ok False (b_raw b') (b_w b') o2 i2 (rp_live _ _ _ _ _ _ R2)) as (r2 & w2 & o3 & E3 & _ & _ & _ & _ & _ & _ & _ & [(-> & _)|([] & _)]).
  { apply (no_epipe_evolves _ _ _ _ V P). } { apply tame_tame_rd. exact (tameb_evolves _ _ _ _ _ V T). } { apply (rp_rd _ _ _ _ _ _ R2), not_writer, K. }
  eexists c, p, _, b', _. split; [exact X|]. split; [exact E|]. split; [unfold b_readall, on_raw; rewrite E3; reflexivity|].
  rewrite Hc, Ho. apply rest_from_skipn, (rp_nn _ _ _ _ _ _ R2).
Qed.

(** "readall() gives the rest of the file": false, what was read ahead is left out. *)
Definition readall_gives_the_rest : Prop := forall k w o i f size ops outs b d b' c p, k <> BWriter -> reached k w o i f size ops outs b ->
  baruns (acc_kind k) (n_data i, o_pos o) ops outs (c, p) -> b_readall b = (Ok (Some d), b') -> rest_from c p d.
Theorem C96_readall_refuted : ~ readall_gives_the_rest.
Proof.
  intros H. destruct demo_reader as (f & w & o & i & Eo & S & D & Po & _).
  specialize (H BReader w o i f 4 [BoRead (Some 1)]).
  destruct (run_bops BReader [BoRead (Some 1)] (fresh f 4 w)) as [outs b] eqn:E.
  destruct (b_readall b) as [r b'] eqn:E2.
  assert (X : outs = [OBytes [1]] /\ r = Ok (Some [5;6])).
  { vm_compute in Eo. injection Eo as <- <-. vm_compute in E. injection E as <- <-. vm_compute in E2. injection E2 as <- _. auto. }
  destruct X as (-> & ->).
  specialize (H _ b [5;6] b' [1;2;3;4;5;6] 1 ltac:(discriminate) ltac:(split; [exact S|split; [exact E|discriminate]])).
  rewrite D, Po in H. destruct H as [H _]; [|exact E2|vm_compute in H; discriminate].
  eapply BAR_cons; [|constructor]. change 1 with (0 + len [1]) at 2. eapply BA_read; [reflexivity|discriminate|reflexivity|].
  split; [right; vm_compute; discriminate|]. intros j Hj. change (len [1]) with 1 in Hj. assert (j = 0) as -> by lia. reflexivity.
Qed.

(** What is written afterwards by a stream that reads and writes goes neither where the stream was nor at the end of the
    file. *)
Definition writes_go_somewhere_sensible : Prop := forall w o i f size ops outs b x b1 d b2 b3 c p, reached BRandom w o i f size ops outs b ->
  baruns (acc_kind BRandom) (n_data i, o_pos o) ops outs (c, p) ->
  b_readall b = (Ok x, b1) -> b_write BRandom d b1 = (Ok (len d), b2) -> b_flush BRandom b2 = (Ok tt, b3) ->
  exists c', holds_file (b_w b3) (o_uid o) c' /\ (stored_at c p d c' \/ stored_at c (len c) d c').
Lemma demo_random : exists f w o i, demo_open "f" true true false (demo [1;2;3;4;5;6;7;8] [] [] []) = (f, w)
  /\ setting BRandom f 4 w o i /\ n_data i = [1;2;3;4;5;6;7;8] /\ o_pos o = 0 /\ o_uid o = (1, 10).
Proof.
  eexists _, _, _, _. split; [vm_compute; reflexivity|].
  split; [constructor; [constructor; try reflexivity; cbn; lia|reflexivity|lia|cbn; auto|cbn; auto|intros e []]|split; [|split]; reflexivity].
Qed.
Theorem C96_write_after_readall_refuted : ~ writes_go_somewhere_sensible.
Proof.
  intros H. destruct demo_random as (f & w & o & i & Eo & S & D & Po & Ou).
  specialize (H w o i f 4 [BoRead (Some 1)]).
  destruct (run_bops BRandom [BoRead (Some 1)] (fresh f 4 w)) as [outs b] eqn:E.
  destruct (b_readall b) as [r b1] eqn:E1. destruct (b_write BRandom [9] b1) as [r2 b2] eqn:E2. destruct (b_flush BRandom b2) as [r3 b3] eqn:E3.
  assert (X : outs = [OBytes [1]] /\ r = Ok (Some [5;6;7;8]) /\ r2 = Ok 1 /\ r3 = Ok tt /\ content (b_w b3) (1, 10) = [1;2;3;4;5;9;7;8]).
  { vm_compute in Eo. injection Eo as <- <-. vm_compute in E. injection E as <- <-. vm_compute in E1. injection E1 as <- <-.
    vm_compute in E2. injection E2 as <- <-. vm_compute in E3. injection E3 as <- <-. vm_compute. auto. }
  destruct X as (-> & -> & -> & -> & Ec).
  specialize (H _ b (Some [5;6;7;8]) b1 [9] b2 b3 [1;2;3;4;5;6;7;8] 1 ltac:(split; [exact S|split; [exact E|intros _; exact Logic.I]])).
  rewrite D, Po in H. destruct H as (c' & (i' & Hi & Hc) & Hs); [|exact E1|exact E2|exact E3|].
  { eapply BAR_cons; [|constructor]. change 1 with (0 + len [1]) at 2. eapply BA_read; [reflexivity|discriminate|reflexivity|].
    split; [right; vm_compute; discriminate|]. intros j Hj. change (len [1]) with 1 in Hj. assert (j = 0) as -> by lia. reflexivity. }
  assert (c' = [1;2;3;4;5;9;7;8]) as ->.
  { rewrite <- Hc, <- Ec. unfold content. rewrite Ou in Hi. now rewrite Hi. }
  destruct Hs as [Hs|Hs].
  - apply (stored_at_fun _ _ _ _ (write_at [1;2;3;4;5;6;7;8] 1 [9])) in Hs; [discriminate|]. apply (stored_write _ 1); lia.
  - apply (stored_at_fun _ _ _ _ (write_at [1;2;3;4;5;6;7;8] 8 [9])) in Hs; [discriminate|]. apply (stored_write _ 8); lia.
Qed.

(** ** Text streams *)

(** The bytes that a text stream gives through read1() or readall() are not those that follow what was read: they are
    after the chunk that was decoded. *)
Definition text_then_bytes : Prop := forall data s t1 d t2, Forall (fun x => 0 <= x < 128) data ->
  t_read (conf BReader NlEmpty) (Some 1) (demo_text BReader 4096 data []) = (Ok s, t1) ->
  t_readall t1 = (Ok (Some d), t2) \/ t_read1 (conf BReader NlEmpty) (len data) t1 = (Ok (Some d), t2) -> s ++ d = data.
Theorem C96_text_bytes_refuted : ~ text_then_bytes.
Proof.
  intros H. assert (F : Forall (fun x => 0 <= x < 128) [97; 98; 99]) by (repeat constructor; lia).
  destruct (t_read (conf BReader NlEmpty) (Some 1) (demo_text BReader 4096 [97; 98; 99] [])) as [r t1] eqn:E.
  destruct (t_readall t1) as [r2 t2] eqn:E2.
  assert (X : r = Ok [97] /\ r2 = Ok (Some [])).
  { vm_compute in E. injection E as <- <-. vm_compute in E2. injection E2 as <- _. auto. }
  destruct X as (-> & ->). specialize (H _ _ _ _ t2 F E (or_introl E2)). discriminate.
Qed.

(** They are exactly what the buffered stream of the text stream gives; what was decoded, or waits to be written as text, is
    left alone. *)
Theorem C96_text_bytes_below : forall c n t,
  let same (r r' : res (option (list byte))) (t' : tstate) (b' : bstate) := r = r' /\ t' = set_b t b' in
  (let '(r, t') := t_readall t in let '(r', b') := on_raw raw_readall (t_b t) in same r r' t' b')
  /\ (let '(r, t') := t_read1 c n t in let '(r', b') := b_read1 (tc_kind c) n (t_b t) in same r r' t' b')
  /\ (let '(r, t') := t_peek c n t in let '(r', b') := b_peek (tc_kind c) n (t_b t) in r = r' /\ t' = set_b t b').
Proof.
  intros c n t. unfold t_readall, t_read1, t_peek, b_readall, on_b. split; [|split].
  - destruct (on_raw raw_readall (t_b t)) as [r b']. auto.
  - destruct (b_read1 (tc_kind c) n (t_b t)) as [r b']. auto.
  - destruct (b_peek (tc_kind c) n (t_b t)) as [r b']. auto.
Qed.
(** One byte is read through the text stream; readall() does not see the three that were read ahead. *)
Example C96_text_bytes_example :
  let t := demo_text BReader 4 [97;98;99;100;101;102;103;104] [] in
  let '(r1, t1) := t_read1 (conf BReader NlEmpty) 1 t in
  let '(r2, t2) := t_readall t1 in
  let '(r3, t3) := t_peek (conf BReader NlEmpty) 1 t2 in
  r1 = Ok (Some [97]) /\ r2 = Ok (Some [101;102;103;104]) /\ r3 = Ok [98;99;100].
Proof. vm_compute. auto. Qed.

(** A program that does it: two bytes are read, then "the rest", then the stream goes on as if nothing had happened. *)
Example C96_example :
  let b := demo_buf BReader 4 [1;2;3;4;5;6;7;8] [] in
  let '(r1, b1) := b_read BReader (Some 2) b in
  let '(r2, b2) := b_readall b1 in
  let '(r3, b3) := b_tell BReader b2 in
  let '(r4, b4) := b_read BReader (Some 9) b3 in
  r1 = Ok (Some [1;2]) /\ r2 = Ok (Some [5;6;7;8]) /\ r3 = Ok 6 /\ r4 = Ok (Some [3;4]).
Proof. vm_compute. auto. Qed.
Example C96_flush_example :
  let b := demo_buf BRandom 4 [1;2;3;4;5;6;7;8] [] in
  let '(_, b1) := b_read BRandom (Some 2) b in
  let '(_, b2) := b_flush BRandom b1 in
  let '(_, b3) := b_write BRandom [9] b2 in
  let '(_, b4) := b_flush BRandom b3 in
  fst (b_raw_tell b2) = Ok 4 /\ fst (b_tell BRandom b2) = Ok 2 /\ fst (b_raw_tell b4) = Ok 3 /\ fst (b_tell BRandom b4) = Ok 3.
Proof. vm_compute. auto. Qed.

Print Assumptions C96_flush_partial.
Print Assumptions C96_flush_after_write.
Print Assumptions C96_reset_buffers.
Print Assumptions C96_flush_refuted.
Print Assumptions C96_readall_partial.
Print Assumptions C96_readall_after_reset.
Print Assumptions C96_readall_refuted.
Print Assumptions C96_write_after_readall_refuted.
Print Assumptions C96_text_bytes_refuted.
Print Assumptions C96_text_bytes_below.
