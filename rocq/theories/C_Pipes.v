(** C94: a pipe between two buffered streams is a queue. *)
From Coq Require Import ZArith Ascii String List Bool Lia.
From Verif Require Import M_Base M_Registry M_Kernel M_World M_Raw M_Buffered S_Bytes S_Pipes M_Pipes S_PipeEnds S_Demo P_Bytes P_Pipes.
Import ListNotations.
Open Scope Z_scope.

Lemma reader_of P u : two_ends P u -> preader (set_world (pp_in P) (pp_w P)) u.
Proof. intros T. constructor; apply T. Qed.
Lemma writer_of P u : two_ends P u -> pwriter (set_world (pp_out P) (pp_w P)) u.
Proof. intros T. constructor; apply T. Qed.
Lemma after_read P u b : two_ends P u -> bkept u (set_world (pp_in P) (pp_w P)) b -> two_ends (mkPipe (pp_out P) b (b_w b)) u.
Proof.
  intros T K. pose proof (bkept_reader _ _ _ (reader_of _ _ T) K) as R. destruct K as (_ & _ & _ & K).
  constructor; cbn [pp_out pp_in pp_w]; try apply T; try apply R. exact (pend_kept _ _ _ _ (te_out _ _ T) K).
Qed.
Lemma after_write P u b : two_ends P u -> wkept u (set_world (pp_out P) (pp_w P)) b -> two_ends (mkPipe b (pp_in P) (b_w b)) u.
Proof.
  intros T K. pose proof (wkept_writer _ _ _ (writer_of _ _ T) K) as R. destruct K as (_ & _ & K).
  constructor; cbn [pp_out pp_in pp_w]; try apply T; try apply R. exact (pend_kept _ _ _ _ (te_in _ _ T) K).
Qed.
Lemma queue_front P u b : queue (mkPipe (pp_out P) b (b_w b)) u = front b u ++ b_wbuf (pp_out P).
Proof. unfold queue, front. cbn [pp_out pp_in pp_w]. now rewrite app_assoc. Qed.
Lemma queue_front_0 P u : queue P u = front (set_world (pp_in P) (pp_w P)) u ++ b_wbuf (pp_out P).
Proof. unfold queue, front. change (unread (set_world (pp_in P) (pp_w P))) with (unread (pp_in P)). cbn [b_w set_world]. now rewrite app_assoc. Qed.
Lemma queue_back P u b : queue (mkPipe b (pp_in P) (b_w b)) u = unread (pp_in P) ++ back b u.
Proof. reflexivity. Qed.
Lemma queue_back_0 P u : queue P u = unread (pp_in P) ++ back (set_world (pp_out P) (pp_w P)) u.
Proof. reflexivity. Qed.

(** One call: the two ends stay, the queue moves as it must, and the exceptions are those of the interface. *)
Lemma one_call P u c o P' : two_ends P u -> run_call c P = (o, P') ->
  two_ends P' u /\ (safe_call c o -> qstep (queue P u) c o (queue P' u)) /\ (forall e, o = PoErr e -> told c e).
Proof.
  intros T H. pose proof (reader_of _ _ T) as R. pose proof (writer_of _ _ T) as W.
  destruct c as [d| |n|n|n|n|n one]; cbn [run_call] in H; unfold at_writer, at_reader in H; cbn [b_write b_flush b_read b_read1 b_peek b_readinto] in H.
  - destruct (writer_write d _) as [r b] eqn:E in H. destruct (pipe_write _ _ _ _ _ W E) as (K & C). injection H as <- <-.
    split; [exact (after_write _ _ _ T K)|]. rewrite queue_back, queue_back_0. destruct r as [n|e].
    + destruct C as (-> & ->). split; [|discriminate]. intros _. rewrite app_assoc. constructor.
    + assert (D : ((exists x, e = EOS x) \/ (exists n, e = EBlocking n)) /\ qstep (unread (pp_in P) ++ back (set_world (pp_out P) (pp_w P)) u) (PcWrite d) (PoErr e) (unread (pp_in P) ++ back b u)).
      { destruct e; try (destruct C as ((x & X) & _); discriminate X).
        - destruct C as ((x & X) & [->| ->]).
          + split; [eauto|]. apply Q_write_none. eauto.
          + split; [eauto|]. rewrite app_assoc. apply Q_write_all.
        - destruct C as (C & ->). split; [eauto|]. rewrite app_assoc. now apply Q_write_part. }
      split; [intros _; apply D|]. intros e0 [= <-]. apply D.
  - destruct (flush_unlocked _) as [r b] eqn:E in H. destruct (pipe_flush _ _ _ _ W E) as (K & F & _ & C). injection H as <- <-.
    split; [exact (after_write _ _ _ T K)|]. rewrite queue_back, queue_back_0, F. destruct r as [[]|e].
    + split; [|discriminate]. intros _. apply Q_flush. now left.
    + split.
      * intros _. apply Q_flush. right. destruct C as [(x & ->)| ->]; eauto.
      * intros e0 [= <-]. exact C.
  - unfold reader_read in H. destruct (match n with Some k => k <? -1 | None => false end) eqn:En.
    { destruct n as [n|]; [|discriminate]. apply Z.ltb_lt in En. injection H as <- <-.
      split; [apply after_read; auto; now apply bkept_refl|]. rewrite queue_front, queue_front_0. split; [intros _; now constructor|].
      intros e [= <-]. right. auto. }
    destruct (read_unlocked n _) as [r b] eqn:E in H.
    assert (Hn : forall k, n = Some k -> -1 <= k). { intros k ->. apply Z.ltb_ge in En. exact En. }
    destruct (pipe_read_unlocked _ _ _ _ _ R Hn E) as (K & C). injection H as <- <-.
    split; [exact (after_read _ _ _ T K)|]. rewrite queue_front, queue_front_0. destruct r as [[d|]|e].
    + split; [|discriminate]. intros _. destruct C as (-> & C). cbn [got] in *. apply Q_read; [now rewrite app_assoc|exact C].
    + split; [|discriminate]. intros _. destruct C as (-> & C). cbn [got List.app]. constructor.
    + split; [|intros e0 [= <-]; cbn; destruct n; auto; now left]. intros S. exfalso. destruct n as [n|]; cbn in S; [|exact S]. specialize (Hn n eq_refl). lia.
  - destruct (reader_read1 n _) as [r b] eqn:E in H. destruct (pipe_read1 _ _ _ _ _ R E) as (K & C). injection H as <- <-.
    split; [exact (after_read _ _ _ T K)|]. rewrite queue_front, queue_front_0. destruct r as [x|e].
    + destruct C as (d & -> & -> & C). split; [|discriminate]. intros _. apply Q_read1; [now rewrite app_assoc|exact C].
    + destruct C as ((x & ->) & ->). split; [intros _; apply Q_fail; eauto|]. intros e [= <-]. eexists. reflexivity.
  - unfold reader_peek, bind in H. rewrite (open_check _ _ R) in H.
    destruct (peek_unlocked n _) as [r b] eqn:E in H. destruct (pipe_peek _ _ _ _ _ R E) as (K & F & C & _). injection H as <- <-.
    split; [exact (after_read _ _ _ T K)|]. rewrite queue_front, queue_front_0. cbn [fst]. destruct r as [d|e].
    + subst d. split; [|discriminate]. intros _. rewrite F. apply (Q_peek _ _ _ (inside (b_w b) u ++ b_wbuf (pp_out P))). rewrite <- F. unfold front. now rewrite app_assoc.
    + split; [|intros e0 [= <-]; exact C]. destruct C as (x & ->). intros _. rewrite F. apply Q_fail. eauto.
  - destruct (b_readline BReader n _) as [r b] eqn:E in H. destruct (pipe_readline _ _ _ _ _ R E) as (K & C). injection H as <- <-.
    split; [exact (after_read _ _ _ T K)|]. rewrite queue_front, queue_front_0. cbn [fst]. destruct r as [d|e].
    + destruct C as (-> & C1 & C2). split; [|discriminate]. intros _. apply Q_readline; auto. now rewrite app_assoc.
    + split; [intros []|]. intros e0 [= <-]. exact C.
  - destruct (reader_readinto n one _) as [r b] eqn:E in H. destruct (pipe_readinto _ _ _ _ _ _ R E) as (K & C). injection H as <- <-.
    split; [exact (after_read _ _ _ T K)|]. rewrite queue_front, queue_front_0. cbn [fst]. destruct r as [d|e].
    + destruct C as (-> & C1). split; [|discriminate]. intros _. apply Q_readinto; auto. now rewrite app_assoc.
    + split; [intros []|]. intros e0 [= <-]. exact C.
Qed.

(** Any calls at the two ends: as long as read(), readline() and readinto() do not raise, the pipe is a queue. *)
Theorem C94_pipe_is_a_queue_partial P u cs os P' : two_ends P u -> run_calls cs P = (os, P') -> Forall2 safe_call cs os ->
  two_ends P' u /\ qruns (queue P u) cs os (queue P' u).
Proof.
  revert P os. induction cs as [|c cs IH]; intros P os T H S.
  - injection H as <- <-. split; [exact T|reflexivity].
  - cbn [run_calls] in H. destruct (run_call c P) as [o P1] eqn:E1. destruct (run_calls cs P1) as [os1 P2] eqn:E2. injection H as <- <-.
    inversion S; subst. destruct (one_call _ _ _ _ _ T E1) as (T1 & Q1 & _). destruct (IH P1 os1 T1 E2) as (T2 & Q2); auto.
    split; [exact T2|]. exists (queue P1 u). auto.
Qed.

(** Nothing is lost, doubled or reordered: what was on the way and what was written is what was read and what is on the way. *)
Lemma balance : forall cs os q q', qruns q cs os q' -> Forall2 certain cs os -> q ++ flows accepted cs os = flows delivered cs os ++ q'.
Proof.
  induction cs as [|c cs IH]; intros [|o os] q q' H S; try easy.
  - cbn in H. subst. now rewrite app_nil_r.
  - destruct H as (q1 & H1 & H2). inversion S as [|? ? ? ? S1 S2]; subst. specialize (IH _ _ _ H2 S2). cbn [flows].
    assert (B : q ++ accepted c o = delivered c o ++ q1).
    { clear IH H2. inversion H1; subst; cbn [accepted delivered List.app]; rewrite ?app_nil_r; auto.
      - now destruct S1.
      - destruct H as [(x & ->)| ->]; cbn; now rewrite ?app_nil_r.
      - destruct H as [->|[(x & ->)| ->]]; cbn; now rewrite ?app_nil_r.
      - destruct H as [(k & ->)|(k & ->)]; cbn; now rewrite ?app_nil_r. }
    rewrite app_assoc, B, <- app_assoc, IH. now rewrite app_assoc.
Qed.
Theorem C94_nothing_lost_partial P u cs os P' : two_ends P u -> run_calls cs P = (os, P') -> Forall2 safe_call cs os -> Forall2 certain cs os ->
  queue P u ++ flows accepted cs os = flows delivered cs os ++ queue P' u.
Proof. intros T H S C. destruct (C94_pipe_is_a_queue_partial _ _ _ _ _ T H S) as (_ & Q). exact (balance _ _ _ _ Q C). Qed.

(** Every call ends, with a result or an exception of the interface; the streams stay usable. *)
Theorem C94_calls_end P u c o P' : two_ends P u -> run_call c P = (o, P') -> two_ends P' u /\ forall e, o = PoErr e -> told c e.
Proof. intros T H. destruct (one_call _ _ _ _ _ T H) as (A & _ & B). auto. Qed.

(** * Example: a named pipe opened at both ends, buffers of four bytes *)
Definition fifo (io : list ioev) : world :=
  set_io (set_inodes (demo [] [] [] []) (fun u => if uid_eqb u (1, 10) then Some (mkIno KPipe [] false) else None)) io.
Definition ends (io : list ioev) : pipe :=
  let '(fw, w1) := demo_open "f"%string false true false (fifo []) in
  let '(fr, w2) := demo_open "f"%string true false false w1 in
  let w3 := set_io w2 io in mkPipe (fresh fw 4 w3) (fresh fr 4 w3) w3.

Lemma ends_ok io : two_ends (ends io) (1, 10).
Proof.
  constructor; try (vm_compute; reflexivity);
    (constructor; [vm_compute; reflexivity|eexists; split; [vm_compute; reflexivity|repeat split; vm_compute; congruence]|eexists; split; vm_compute; reflexivity]).
Qed.
Lemma ends_queue io : queue (ends io) (1, 10) = []. Proof. vm_compute. reflexivity. Qed.

(** Writes and reads of all kinds, among them one that would block and a short write. *)
Definition talk : list pcall :=
  [PcWrite [1; 2; 3]; PcPeek 1; PcWrite [4; 10; 5]; PcPeek 1; PcReadline (-1); PcWrite [6; 7; 8; 9]; PcFlush; PcRead1 (-1); PcReadinto 2 false; PcRead None].
Definition talk_io : list ioev := [IoErr 11; IoFull; IoShort 2; IoFull].
Definition answers : list pout :=
  [PoCount 3; PoBytes []; PoCount 3; PoBytes [1; 2]; PoBytes [1; 2; 3; 4; 10]; PoCount 4; PoDone; PoBytes [5]; PoBytes [6; 7]; PoBytes [8; 9]].
Example C94_talk : let P' := snd (run_calls talk (ends talk_io)) in
  fst (run_calls talk (ends talk_io)) = answers /\ qruns [] talk answers (queue P' (1, 10)) /\ queue P' (1, 10) = [].
Proof.
  cbv zeta. assert (E : fst (run_calls talk (ends talk_io)) = answers) by (vm_compute; reflexivity). split; [exact E|].
  destruct (run_calls talk (ends talk_io)) as [os P'] eqn:R. cbn [fst snd] in *. subst os. split.
  - rewrite <- (ends_queue talk_io). apply (C94_pipe_is_a_queue_partial _ _ _ _ _ (ends_ok talk_io) R). unfold talk, answers. repeat constructor.
  - replace P' with (snd (run_calls talk (ends talk_io))) by now rewrite R. vm_compute. reflexivity.
Qed.
(** A write that would block takes six bytes of nine, says so, and these six arrive. *)
Example C94_full_pipe : fst (run_calls [PcWrite [1; 2; 3; 4; 5; 6; 7; 8; 9]; PcWrite [10; 11]; PcRead (Some 20); PcFlush; PcRead (Some 20)]
    (ends [IoShort 2; IoErr 11; IoErr 11])) = [PoErr (EBlocking 6); PoErr (EBlocking 0); PoBytes [1; 2]; PoDone; PoBytes [3; 4; 5; 6]].
Proof. vm_compute. reflexivity. Qed.

(** * What does not hold *)

(** readinto() loses bytes when the pipe is empty for the moment and the buffer given is larger than the stream's own: a
    TypeError of RSFileIO.readinto (len(None)), after what was in the stream's buffer was taken out of it. *)
Theorem C94_nothing_lost_refuted : exists P u cs os P', two_ends P u /\ run_calls cs P = (os, P') /\ Forall2 certain cs os
  /\ os = [PoCount 3; PoDone; PoBytes [1; 2; 3]; PoErr EType]
  /\ flows accepted cs os = [1; 2; 3] /\ flows delivered cs os = [] /\ queue P u = [] /\ queue P' u = [].
Proof.
  set (cs := [PcWrite [1; 2; 3]; PcFlush; PcPeek 1; PcReadinto 20 false]). set (io := [IoFull; IoFull; IoErr 11]).
  exists (ends io), (1, 10), cs, (fst (run_calls cs (ends io))), (snd (run_calls cs (ends io))).
  assert (E : fst (run_calls cs (ends io)) = [PoCount 3; PoDone; PoBytes [1; 2; 3]; PoErr EType]) by (vm_compute; reflexivity).
  split; [apply ends_ok|]. split; [apply surjective_pairing|]. rewrite E. split; [repeat constructor|]. repeat split; vm_compute; reflexivity.
Qed.

(** Only read() tells a pipe that is empty for the moment (None) from one that has ended (b""): the others say b"". *)
Theorem C94_would_block_is_told_refuted : exists P u, two_ends P u
  /\ fst (run_call (PcRead (Some 5)) P) = PoNone
  /\ fst (run_call (PcRead1 5) P) = PoBytes [] /\ fst (run_call (PcPeek 5) P) = PoBytes []
  /\ fst (run_call (PcReadline (-1)) P) = PoBytes [] /\ fst (run_call (PcReadinto 3 false) P) = PoBytes [].
Proof.
  exists (ends [IoErr 11; IoErr 11]), (1, 10). split; [apply ends_ok|]. repeat split; vm_compute; reflexivity.
Qed.

Print Assumptions C94_pipe_is_a_queue_partial.
Print Assumptions C94_nothing_lost_partial.
Print Assumptions C94_calls_end.
Print Assumptions C94_talk.
Print Assumptions C94_nothing_lost_refuted.
Print Assumptions C94_would_block_is_told_refuted.
