(** Final theorems about readline(), readlines(), writelines() and readinto() of buffered
    streams: C52, C53. *)
From Coq Require Import ZArith Ascii String List Bool Lia.
From Verif Require Import M_Base M_Modes M_Registry M_Kernel M_World M_Raw M_Buffered M_BufLines S_Bytes S_Raw S_Locks S_LockFile
  S_Open S_Buffered S_BufLine S_Demo P_Bytes P_Raw P_Close P_Frame P_LockFile P_Open P_Buffered P_BufOps P_BufRun P_BufLine C_Buffered.
Import ListNotations.
Open Scope Z_scope.

(** From now on the stream [b] behaves as the byte array [c] with its cursor at [p]. *)
Definition stands_for (k : bkind) (u : uid) (b : bstate) (c : list Z) (p : Z) : Prop :=
  forall ops outs b', run_bops k ops b = (outs, b') -> (k = BRandom -> disciplined false (combine ops outs)) ->
  exists c' p', baruns (acc_kind k) (c, p) ops outs (c', p')
    /\ exists b'', b_flush k b' = (Ok tt, b'') /\ holds_file (b_w b'') u c'.

Lemma rep_stands k b o i c p : rep k b o i c p -> o_app o = false -> tameb False b o -> no_epipe (b_w b) -> stands_for k (o_uid o) b c p.
Proof.
  intros R A T P ops outs b' E D.
  destruct (bruns_ok k ops _ _ _ _ _ false R A T P ltac:(intros _ X; discriminate) outs b' E D) as (o' & i' & c' & p' & R' & V' & X).
  exists c', p'. rewrite bacc_acc in X. split; [exact X|].
  destruct (b_flush_ok False k b' o' i' c' p' R' (tameb_evolves _ _ _ _ _ V' T)) as (r & b'' & o'' & i'' & E'' & [R'' V'' _ _ _ [[-> W]|[[] _]]]).
  exists b''. split; [exact E''|]. exists i''. split; [|apply (rep_flat _ _ _ _ _ _ R'' W)].
  rewrite <- (lv_ino _ _ _ _ (rp_live _ _ _ _ _ _ R'')). f_equal.
  now rewrite (so_uid _ _ (ev_o _ _ _ _ V'')), (so_uid _ _ (ev_o _ _ _ _ V')).
Qed.

(** What a program did with the stream so far. *)
Definition reached (k : bkind) (w : world) (o : ofd) (i : inode) (f : rawio) (size : Z) (ops : list bop) (outs : list rout) (b : bstate) : Prop :=
  setting k f size w o i /\ run_bops k ops (fresh f size w) = (outs, b) /\ (k = BRandom -> disciplined true (combine ops outs)).

Lemma reached_rep k w o i f size ops outs b : reached k w o i f size ops outs b ->
  exists o' i' c p, rep k b o' i' c p /\ o_app o' = false /\ tameb False b o' /\ no_epipe (b_w b) /\ o_uid o' = o_uid o
    /\ incl (w_io (b_w b)) (w_io w)
    /\ baruns (acc_kind k) (n_data i, o_pos o) ops outs (c, p).
Proof.
  intros (S & E & D). destruct (setting_rep _ _ _ _ _ _ S) as (R & T & P).
  destruct (bruns_ok k ops _ _ _ _ _ true R (se_app _ _ _ _ _ _ S) T P ltac:(intros _ _; reflexivity) outs b E D) as (o' & i' & c & p & R' & V' & X).
  exists o', i', c, p. split; [exact R'|]. split; [rewrite (so_app _ _ (ev_o _ _ _ _ V')); apply (se_app _ _ _ _ _ _ S)|]. split; [apply (tameb_evolves _ _ _ _ _ V' T)|]. split; [apply (no_epipe_evolves _ _ _ _ V' P)|].
  split; [apply (so_uid _ _ (ev_o _ _ _ _ V'))|]. split; [apply (fr_io _ _ _ _ (ev_frame _ _ _ _ V'))|]. now rewrite <- bacc_acc.
Qed.
Lemma not_writer k : k <> BWriter -> can_read k = true.
Proof. destruct k; cbn; congruence. Qed.
Lemma not_reader k : k <> BReader -> can_write k = true.
Proof. destruct k; cbn; congruence. Qed.

Lemma stands_after k b o i b1 o1 i1 c p c1 p1 : rep k b o i c p -> o_app o = false -> tameb False b o -> no_epipe (b_w b) -> evolves b b1 o o1 -> rep k b1 o1 i1 c1 p1 ->
  stands_for k (o_uid o) b1 c1 p1.
Proof.
  intros R A T P V R1. rewrite <- (so_uid _ _ (ev_o _ _ _ _ V)). eapply rep_stands; [exact R1|rewrite (so_app _ _ (ev_o _ _ _ _ V)); exact A|apply (tameb_evolves _ _ _ _ _ V T)|apply (no_epipe_evolves _ _ _ _ V P)].
Qed.

(** * C52: lines *)
Theorem C52_readline : forall k w o i f size ops outs b, k <> BWriter -> reached k w o i f size ops outs b ->
  exists c p, baruns (acc_kind k) (n_data i, o_pos o) ops outs (c, p) /\ (exists l, line_at c p l) /\
    forall limit l, line_at c p l ->
    exists d b', b_readline k limit b = (Ok d, b') /\ line_got limit l d /\ stands_for k (o_uid o) b' c (p + len d).
Proof.
  intros k w o i f size ops outs b K H. destruct (reached_rep _ _ _ _ _ _ _ _ _ H) as (o' & i' & c & p & R & Ap & T & P & U & _ & X).
  exists c, p. split; [exact X|]. split; [apply line_exists, (rp_nn _ _ _ _ _ _ R)|]. intros limit l Hl.
  destruct (readline_ok k b o' i' c p limit l R T P (not_writer _ K) Hl) as (d & b' & o2 & i2 & E & V & R2 & _ & G).
  exists d, b'. split; [exact E|]. split; [exact G|]. rewrite <- U. eapply stands_after; eauto.
Qed.

(** With no limit it is the line. *)
Corollary C52_readline_whole : forall k w o i f size ops outs b, k <> BWriter -> reached k w o i f size ops outs b ->
  exists c p l b', baruns (acc_kind k) (n_data i, o_pos o) ops outs (c, p) /\ line_at c p l
    /\ b_readline k (-1) b = (Ok l, b') /\ stands_for k (o_uid o) b' c (p + len l).
Proof.
  intros k w o i f size ops outs b K H. destruct (C52_readline _ _ _ _ _ _ _ _ _ K H) as (c & p & X & (l & Hl) & G).
  destruct (G (-1) l Hl) as (d & b' & E & (r & El & Er & _) & St). specialize (Er ltac:(lia)). subst r. rewrite app_nil_r in El. subst d. eauto 8.
Qed.

(** "readline(size) returns at most size bytes": false. *)
Definition limit_is_respected : Prop := forall k w o i f size ops outs b limit d b', k <> BWriter -> reached k w o i f size ops outs b ->
  0 <= limit -> b_readline k limit b = (Ok d, b') -> len d <= limit.
Lemma demo_reader : exists f w o i, demo_open "f" true false false (demo [1;2;3;4;5;6] [] [] []) = (f, w)
  /\ setting BReader f 4 w o i /\ n_data i = [1;2;3;4;5;6] /\ o_pos o = 0 /\ w_io w = [].
Proof.
  eexists _, _, _, _. split; [vm_compute; reflexivity|].
  split; [constructor; [constructor; try reflexivity; cbn; lia|reflexivity|lia|cbn; auto|cbn; auto|intros e []]|split; [|split]; reflexivity].
Qed.
Theorem C52_limit_refuted : ~ limit_is_respected.
Proof.
  intros H. destruct demo_reader as (f & w & o & i & Eo & S & D & Po & _).
  specialize (H BReader w o i f 4 [BoRead (Some 2)]).
  destruct (run_bops BReader [BoRead (Some 2)] (fresh f 4 w)) as [outs b] eqn:E.
  destruct (b_readline BReader 3 b) as [r b'] eqn:E2.
  assert (r = Ok [3;4;5;6]) as ->.
  { vm_compute in Eo. injection Eo as <- <-. vm_compute in E. injection E as <- <-. vm_compute in E2. injection E2 as <- _. reflexivity. }
  specialize (H outs b 3 _ b' ltac:(discriminate) ltac:(split; [exact S|split; [exact E|discriminate]]) ltac:(lia) E2). unfold len in H. cbn [length] in H. lia.
Qed.

Theorem C52_readlines : forall k w o i f size ops outs b, k <> BWriter -> reached k w o i f size ops outs b ->
  exists c p, baruns (acc_kind k) (n_data i, o_pos o) ops outs (c, p) /\
    forall hint, exists ls b', b_readlines k hint b = (Ok ls, b') /\ lines_got hint c p ls /\ stands_for k (o_uid o) b' c (p + len (concat ls)).
Proof.
  intros k w o i f size ops outs b K H. destruct (reached_rep _ _ _ _ _ _ _ _ _ H) as (o' & i' & c & p & R & Ap & T & P & U & _ & X).
  exists c, p. split; [exact X|]. intros hint.
  destruct (readlines_ok k b o' i' c p hint R T P (not_writer _ K)) as (ls & b' & o2 & i2 & E & V & R2 & G).
  exists ls, b'. split; [exact E|]. split; [exact G|]. rewrite <- U. eapply stands_after; eauto.
Qed.

(** writelines() writes the concatenation of what it is given. *)
Theorem C52_writelines : forall k w o i f size ops outs b, k <> BReader -> reached k w o i f size ops outs b ->
  exists c p, baruns (acc_kind k) (n_data i, o_pos o) ops outs (c, p) /\
    forall ds, exists b' c', b_writelines k ds b = (Ok tt, b') /\ stored_at c p (concat ds) c' /\ stands_for k (o_uid o) b' c' (p + len (concat ds)).
Proof.
  intros k w o i f size ops outs b K H. destruct (reached_rep _ _ _ _ _ _ _ _ _ H) as (o' & i' & c & p & R & Ap & T & P & U & _ & X).
  exists c, p. split; [exact X|]. intros ds.
  destruct (writelines_ok k b o' i' c p ds R Ap T (not_reader _ K)) as (b' & o2 & i2 & E & V & R2 & _).
  exists b', (write_at c (Z.to_nat p) (concat ds)). split; [exact E|]. split; [apply stored_write, (rp_nn _ _ _ _ _ _ R)|]. rewrite <- U. eapply stands_after; eauto.
Qed.

Example C52_example :
  let b := demo_buf BRandom 4 [97;10;98;99;10;100;101;102;103;104;10;105] [IoFull; IoShort 1; IoShort 2; IoFull] in
  let '(l1, b1) := b_readline BRandom (-1) b in
  let '(l2, b2) := b_readline BRandom 1 b1 in
  let '(l3, b3) := b_readlines BRandom 5 b2 in
  let '(l4, b4) := b_readlines BRandom 0 b3 in
  let '(r, b5) := b_writelines BRandom [[1;10];[2]] b4 in
  l1 = Ok [97;10] /\ l2 = Ok [98] /\ l3 = Ok [[99;10];[100;101;102;103;104;10]] /\ l4 = Ok [[105]] /\ r = Ok tt
  /\ content (b_w (snd (b_flush BRandom b5))) (1, 10) = [97;10;98;99;10;100;101;102;103;104;10;105;1;10;2].
Proof. vm_compute. auto 8. Qed.
Example C52_reached_inhabited : exists f w o i outs b, reached BReader w o i f 4 [BoRead (Some 2)] outs b.
Proof.
  destruct demo_reader as (f & w & o & i & _ & S & _). destruct (run_bops BReader [BoRead (Some 2)] (fresh f 4 w)) as [outs b] eqn:E. exists f, w, o, i, outs, b. split; [exact S|]. split; [exact E|discriminate].
Qed.

(** * C53: readinto()

    [b_readinto k n read1]: a buffer of [n] bytes; [read1] for readinto1(). *)
Definition filled (n : Z) (c : list Z) (p : Z) (d : list Z) : Prop := len d = Z.min n (Z.max 0 (len c - p)) /\ slice_at c p d.

(** readinto1() is read1(). *)
Theorem C53_readinto1 : forall k w o i f size ops outs b, k <> BWriter -> reached k w o i f size ops outs b ->
  exists c p, baruns (acc_kind k) (n_data i, o_pos o) ops outs (c, p) /\
    forall n, 0 <= n -> exists d b', b_readinto k n true b = (Ok d, b') /\ len d <= n /\ slice_at c p d /\ (d = [] -> n = 0 \/ len c <= p)
      /\ stands_for k (o_uid o) b' c (p + len d).
Proof.
  intros k w o i f size ops outs b K H. destruct (reached_rep _ _ _ _ _ _ _ _ _ H) as (o' & i' & c & p & R & Ap & T & P & U & _ & X).
  exists c, p. split; [exact X|]. intros n Hn.
  destruct (readinto_ok k b o' i' c p n true R T P (not_writer _ K) Hn) as (r & b' & b1 & o1 & i1 & E & V & R1 & Q & [(d & -> & o2 & V2 & R2 & _ & S2 & A & _ & B)|(_ & B)]).
  - exists d, b'. split; [exact E|]. split; [exact A|]. split; [exact S2|]. split; [exact B|]. rewrite <- U. eapply stands_after; [exact R|exact Ap|exact T|exact P|eapply evolves_trans; eauto|exact R2].
  - exfalso. apply B. left. auto.
Qed.

(** readinto() fills the buffer or raises ValueError; it never returns anything else. *)
Theorem C53_readinto_or_error_partial : forall k w o i f size ops outs b, k <> BWriter -> reached k w o i f size ops outs b ->
  exists c p, baruns (acc_kind k) (n_data i, o_pos o) ops outs (c, p) /\
    forall n, 0 <= n -> exists r b', b_readinto k n false b = (r, b') /\
      (r = Err EValue \/ exists d, r = Ok d /\ filled n c p d /\ stands_for k (o_uid o) b' c (p + len d)).
Proof.
  intros k w o i f size ops outs b K H. destruct (reached_rep _ _ _ _ _ _ _ _ _ H) as (o' & i' & c & p & R & Ap & T & P & U & _ & X).
  exists c, p. split; [exact X|]. intros n Hn.
  destruct (readinto_ok k b o' i' c p n false R T P (not_writer _ K) Hn) as (r & b' & b1 & o1 & i1 & E & V & R1 & Q & [(d & -> & o2 & V2 & R2 & _ & S2 & _ & A & _)|(-> & _)]).
  - exists (Ok d), b'. split; [exact E|]. right. exists d. split; [reflexivity|]. split; [split; [auto|exact S2]|].
    rewrite <- U. eapply stands_after; [exact R|exact Ap|exact T|exact P|eapply evolves_trans; eauto|exact R2].
  - exists (Err EValue), b'. auto.
Qed.

(** After a successful seek, when read(2) returns all the bytes there are, readinto() fills
    the buffer. *)
Theorem C53_readinto_after_seek_partial : forall k w o i f size ops outs b off wh t b1,
  k <> BWriter -> reached k w o i f size ops outs b -> (forall e, In e (w_io w) -> e = IoFull) ->
  b_seek k off wh b = (Ok t, b1) ->
  exists c p, baruns (acc_kind k) (n_data i, o_pos o) ops outs (c, p) /\
    forall n, 0 <= n -> exists d b', b_readinto k n false b1 = (Ok d, b') /\ filled n c t d /\ stands_for k (o_uid o) b' c (t + len d).
Proof.
  intros k w o i f size ops outs b off wh t b1 K H F Es. destruct (reached_rep _ _ _ _ _ _ _ _ _ H) as (o' & i' & c & p & R & Ap & T & P & U & Io & X).
  exists c, p. split; [exact X|]. intros n Hn.
  destruct (b_seek_ok False k b o' i' c p off wh R T) as (r & b1' & o1 & i1 & E1 & V1 & So). rewrite E1 in Es. injection Es as -> ->.
  destruct So as [(t' & _ & Ht & Et & R1 & Er & _)|[(t' & _ & _ & Y & _)|[(_ & Y & _)|([] & _)]]]; try discriminate. injection Et as <-.
  destruct (readinto_ok k b1 o1 i1 c t n false R1 (tameb_evolves _ _ _ _ _ V1 T) (no_epipe_evolves _ _ _ _ V1 P) (not_writer _ K) Hn)
    as (r & b' & b2 & o2 & i2 & E & V & R2 & Q & [(d & -> & o3 & V3 & R3 & _ & S3 & _ & A & _)|(-> & B)]).
  - exists d, b'. split; [exact E|]. split; [split; [auto|exact S3]|]. rewrite <- U.
    eapply stands_after; [exact R|exact Ap|exact T|exact P|eapply evolves_trans; [exact V1|eapply evolves_trans; eauto]|exact R3].
  - exfalso. apply B. right. split.
    + intros e He. apply F, Io. apply (fr_io _ _ _ _ (ev_frame _ _ _ _ (evolves_trans _ _ _ _ _ _ V1 V))), He.
    + left. split; [reflexivity|]. left. apply unread_nil. congruence.
Qed.

(** Otherwise it may fail, and what it had taken is lost. *)
Definition readinto_fills : Prop := forall k w o i f size ops outs b n, k <> BWriter -> reached k w o i f size ops outs b -> 0 <= n ->
  exists d b', b_readinto k n false b = (Ok d, b').
Theorem C53_readinto_fills_refuted : ~ readinto_fills.
Proof.
  intros H. destruct demo_reader as (f & w & o & i & Eo & S & D & Po & _).
  specialize (H BReader w o i f 4 [BoRead (Some 1)]).
  destruct (run_bops BReader [BoRead (Some 1)] (fresh f 4 w)) as [outs b] eqn:E.
  destruct (H outs b 4 ltac:(discriminate) ltac:(split; [exact S|split; [exact E|discriminate]]) ltac:(lia)) as (d & b' & E2).
  vm_compute in Eo. injection Eo as <- <-. vm_compute in E. injection E as <- <-. vm_compute in E2. discriminate.
Qed.
Example C53_bytes_lost :
  let b := demo_buf BReader 4 [1;2;3;4;5;6;7;8] [] in
  let '(r1, b1) := b_read BReader (Some 1) b in
  let '(r2, b2) := b_readinto BReader 4 false b1 in
  let '(r3, _) := b_read BReader (Some 2) b2 in
  r1 = Ok (Some [1]) /\ r2 = Err EValue /\ r3 = Ok (Some [5;6]).
Proof. vm_compute. auto. Qed.
Example C53_example :
  let b := demo_buf BReader 4 [1;2;3;4;5;6;7;8] [] in
  let '(r1, b1) := b_readinto BReader 3 false b in
  let '(r2, b2) := b_readinto BReader 2 true b1 in
  let '(r3, b3) := b_seek BReader 2 0 b2 in
  let '(r4, b4) := b_readinto BReader 20 false b3 in
  r1 = Ok [1;2;3] /\ r2 = Ok [4] /\ r3 = Ok 2 /\ r4 = Ok [3;4;5;6;7;8].
Proof. vm_compute. auto. Qed.

Print Assumptions C52_readline.
Print Assumptions C52_readline_whole.
Print Assumptions C52_limit_refuted.
Print Assumptions C52_readlines.
Print Assumptions C52_writelines.
Print Assumptions C53_readinto1.
Print Assumptions C53_readinto_or_error_partial.
Print Assumptions C53_readinto_after_seek_partial.
Print Assumptions C53_readinto_fills_refuted.
