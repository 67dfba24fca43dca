(** Sequences of calls on a buffered stream (C31, C32). *)
From Coq Require Import ZArith Ascii String List Bool Lia.
From Verif Require Import M_Base M_Modes M_Registry M_Kernel M_World M_Raw M_Buffered S_Bytes S_Raw S_Buffered
  P_Bytes P_Raw P_Buffered P_BufOps.
Import ListNotations.
Open Scope Z_scope.

Definition blift {A} (f : A -> rout) (x : res A * bstate) : rout * bstate :=
  match x with (Ok a, b) => (f a, b) | (Err e, b) => (OErr e, b) end.
Definition run_bop (k : bkind) (op : bop) (b : bstate) : rout * bstate :=
  let obytes (d : option (list Z)) := match d with Some d => OBytes d | None => ONone end in
  match op with
  | BoRead n => blift obytes (b_read k n b)
  | BoRead1 n => blift obytes (b_read1 k n b)
  | BoPeek n => blift OBytes (b_peek k n b)
  | BoWrite d => blift OInt (b_write k d b)
  | BoSeek off wh => blift OInt (b_seek k off wh b)
  | BoTell => blift OInt (b_tell k b)
  | BoSize => blift OInt (b_fsize k b)
  | BoFlush => blift (fun _ => OUnit) (b_flush k b)
  | BoTruncate s => blift OInt (b_truncate k s b)
  end.
Fixpoint run_bops (k : bkind) (ops : list bop) (b : bstate) : list rout * bstate :=
  match ops with
  | [] => ([], b)
  | op :: r => let '(o, b1) := run_bop k op b in let '(os, b2) := run_bops k r b1 in (o :: os, b2)
  end.

Definition bacc_of (k : bkind) : bacc := mkBacc (can_read k) (can_write k).

Lemma stored_write c p d : 0 <= p -> stored_at c p d (write_at c (Z.to_nat p) d).
Proof. intros H. pose proof (write_at_stored c (Z.to_nat p) d) as X. rewrite Z2Nat.id in X by lia. exact X. Qed.

(** Nothing read since the last write or seek. *)
Definition clean_ok (k : bkind) (clean : bool) (b : bstate) : Prop := k = BRandom -> clean = true -> b_rbuf b = [].

(** In append mode: calls that do not depend on the position while bytes wait to be written. *)
Definition steady (k : bkind) (b : bstate) (o : ofd) (i : inode) (op : bop) : Prop :=
  match op with
  | BoWrite _ => k = BReader
  | BoTell => epos b o i = o_pos o
  | BoTruncate None => k = BRandom -> epos b o i = o_pos o
  | _ => True
  end.
Lemma bstep_ok k b o i c p op clean : rep k b o i c p -> o_app o = false \/ steady k b o i op -> tameb False b o -> no_epipe (b_w b) -> clean_ok k clean b ->
  forall out b' rest, run_bop k op b = (out, b') -> (k = BRandom -> disciplined clean ((op, out) :: rest)) ->
  exists o' i' c' p' clean', rep k b' o' i' c' p' /\ evolves b b' o o' /\ bastep (bacc_of k) (c, p) op out (c', p')
    /\ clean_ok k clean' b' /\ (k = BRandom -> disciplined clean' rest).
Proof.
  intros R A T Hp Cl out b' rest E D. pose proof (rp_nn _ _ _ _ _ _ R) as Pn.
  destruct op; cbn [run_bop] in E.
  - (* read *)
    destruct (can_read k) eqn:K.
    2:{ destruct k; try discriminate. cbn in E. injection E as <- <-.
        exists o, i, c, p, true. split; [exact R|]. split; [auto with frame|]. split; [|split; discriminate].
        constructor 1; cbn; eauto. }
    destruct (Z_lt_dec (match n with Some n => n | None => 0 end) (-1)) as [Hneg|Hok].
    + destruct n as [n|]; [|lia].
      destruct (preflush k b o i c p (reader_read (Some n)) R T K) as (b1 & o1 & i1 & E1 & R1 & V1 & W1).
      assert (E0 : b_read k (Some n) b = (Err EValue, b1)).
      { transitivity (reader_read (Some n) b1).
        - rewrite <- E1. destruct k; [reflexivity|discriminate|reflexivity].
        - unfold reader_read. destruct (Z.ltb_spec n (-1)); [reflexivity|lia]. }
      rewrite E0 in E. cbn in E. injection E as <- <-.
      exists o1, i1, c, p, false. split; [exact R1|]. split; [exact V1|]. split; [now constructor|].
      split; [discriminate|]. intros X. exact (D X).
    + destruct (b_read_ok k b o i c p n R T Hp K) as (r & b1 & o1 & i1 & E1 & V1 & (d & -> & G & S & R1 & W1)).
      { destruct n; cbn; auto. lia. }
      rewrite E1 in E. cbn in E. injection E as <- <-.
      exists o1, i1, c, (p + len d), false. split; [exact R1|]. split; [exact V1|]. split; [|split; [discriminate|intros X; exact (D X)]].
      destruct n as [n|]; cbn [read_good] in G.
      * destruct (Z.eqb_spec n (-1)) as [-> |]; [apply BA_read_all; auto|]. apply BA_read; auto. lia.
      * apply BA_read_all; auto.
  - (* read1 *)
    destruct (can_read k) eqn:K.
    2:{ destruct k; try discriminate. cbn in E. injection E as <- <-.
        exists o, i, c, p, true. split; [exact R|]. split; [auto with frame|]. split; [|split; discriminate].
        constructor 1; cbn; eauto. }
    destruct (b_read1_ok k b o i c p n R T Hp K) as (r & b1 & o1 & i1 & E1 & V1 & (d & -> & [G1 G2] & S & R1 & W1)).
    rewrite E1 in E. cbn in E. injection E as <- <-.
    exists o1, i1, c, (p + len d), false. split; [exact R1|]. split; [exact V1|]. split; [|split; [discriminate|intros X; exact (D X)]].
    now apply BA_read1.
  - (* peek *)
    destruct (can_read k) eqn:K.
    2:{ destruct k; try discriminate. cbn in E. injection E as <- <-.
        exists o, i, c, p, true. split; [exact R|]. split; [auto with frame|]. split; [|split; discriminate].
        now constructor. }
    destruct (b_peek_ok k b o i c p n R T Hp K) as (d & b1 & o1 & i1 & E1 & V1 & R1 & W1 & S & G).
    rewrite E1 in E. cbn in E. injection E as <- <-.
    exists o1, i1, c, p, false. split; [exact R1|]. split; [exact V1|]. split; [|split; [discriminate|intros X; exact (D X)]].
    now apply BA_peek.
  - (* write *)
    destruct (can_write k) eqn:K.
    2:{ destruct k; try discriminate. cbn in E. injection E as <- <-.
        exists o, i, c, p, true. split; [exact R|]. split; [auto with frame|]. split; [|split; discriminate].
        apply BA_unwritable; cbn; eauto. }
    destruct (b_write_ok False k b o i c p d R T K) as (r & b1 & o1 & i1 & c1 & p1 & E1 & R1 & V1 & Er & Wn & _).
    destruct A as [A|A]; [|cbn in A; now subst k]. rewrite A in Wn. destruct Wn; try contradiction. rewrite E1 in E. cbn in E. injection E as <- <-.
    exists o1, i1, (write_at c (Z.to_nat p) d), (p + len d), true. split; [exact R1|]. split; [exact V1|].
    split; [apply BA_write; auto; now apply stored_write|]. split; [intros _ _; exact Er|intros X; exact (D X)].
  - (* seek *)
    destruct (b_seek_ok False k b o i c p offset whence R T) as (r & b1 & o1 & i1 & E1 & V1 & X).
    rewrite E1 in E. cbn in E.
    destruct X as [(t & St & Ht & -> & R1 & Er & Ew)|[(t & St & Ht & -> & X)|[(St & -> & R1 & Er)|([] & _)]]];
      cbn in E; injection E as <- <-.
    + exists o1, i1, c, t, true. split; [exact R1|]. split; [exact V1|]. split; [now constructor|]. split; [intros _ _; exact Er|intros X; exact (D X)].
    + assert (Hc : k = BRandom -> b_rbuf b = []).
      { intros Hk. apply Cl; auto. apply (D Hk). }
      destruct (X Hc) as [R1 Er]. exists o1, i1, c, p, clean. split; [exact R1|]. split; [exact V1|].
      split; [now apply (BA_seek_neg _ _ _ _ _ t)|]. split; [|intros Hk; apply (D Hk)].
      intros Hk _. rewrite Er. auto.
    + exists o1, i1, c, p, clean. split; [exact R1|]. split; [exact V1|]. split; [now constructor|].
      split; [|intros Hk; exact (D Hk)]. intros Hk Hc. rewrite Er. auto.
  - (* tell *)
    destruct (b_tell_ok k b o i c p R ltac:(destruct A as [A|A]; [now apply epos_plain|exact A])) as (b1 & E1 & R1 & V1 & Er & _). rewrite E1 in E. cbn in E. injection E as <- <-.
    exists o, i, c, p, clean. split; [exact R1|]. split; [exact V1|]. split; [constructor|].
    split; [|intros Hk; exact (D Hk)]. intros Hk Hc. rewrite Er. auto.
  - (* size *)
    destruct (b_fsize_ok False k b o i c p R T) as (r & b1 & o1 & i1 & E1 & R1 & V1 & Er & [[-> _]|([] & _)]).
    rewrite E1 in E. cbn in E. injection E as <- <-.
    exists o1, i1, c, p, clean. split; [exact R1|]. split; [exact V1|]. split; [constructor|].
    split; [|intros Hk; exact (D Hk)]. intros Hk Hc. rewrite Er. auto.
  - (* flush *)
    destruct (b_flush_ok False k b o i c p R T) as (r & b1 & o1 & i1 & E1 & [R1 V1 Er _ _ [[-> _]|([] & _)]]).
    rewrite E1 in E. cbn in E. injection E as <- <-.
    exists o1, i1, c, p, clean. split; [exact R1|]. split; [exact V1|]. split; [constructor|].
    split; [|intros Hk; exact (D Hk)]. intros Hk Hc. rewrite Er. auto.
  - (* truncate *)
    destruct (can_write k) eqn:K.
    2:{ destruct k; try discriminate. cbn in E. unfold bind in E. rewrite (check_closed_rep _ _ _ _ _ _ R) in E.
        cbn in E. injection E as <- <-.
        exists o, i, c, p, true. split; [exact R|]. split; [auto with frame|]. split; [|split; discriminate].
        apply BA_unwritable; cbn; eauto. }
    assert (Er : b_rbuf b = []).
    { destruct k; [discriminate|apply (rp_nord _ _ _ _ _ _ R eq_refl)|].
      apply Cl; auto. apply (D eq_refl). }
    destruct (b_truncate_ok False k b o i c p size R ltac:(intros -> ->; destruct A as [A|A]; [now apply epos_plain|now apply A]) T K Er) as (r & b1 & o1 & i1 & E1 & V1 & Er1 & X).
    rewrite E1 in E. unfold trunc_outcome in X.
    destruct X as [(Hn & -> & R1)|[(Hn & -> & R1)|([] & _)]]; cbn in E; injection E as <- <-.
    + eexists o1, i1, _, p, clean. split; [exact R1|]. split; [exact V1|].
      split. { eapply BA_trunc; eauto. now apply set_size_resized. }
      split; [intros _ _; exact Er1|intros Hk; apply (D Hk)].
    + exists o1, i1, c, p, clean. split; [exact R1|]. split; [exact V1|].
      split. { destruct size as [x|]; [now constructor|lia]. }
      split; [intros _ _; exact Er1|intros Hk; apply (D Hk)].
Qed.

Lemma bruns_ok k : forall ops b o i c p clean, rep k b o i c p -> o_app o = false -> tameb False b o -> no_epipe (b_w b) -> clean_ok k clean b ->
  forall outs b', run_bops k ops b = (outs, b') -> (k = BRandom -> disciplined clean (combine ops outs)) ->
  exists o' i' c' p', rep k b' o' i' c' p' /\ evolves b b' o o' /\ baruns (bacc_of k) (c, p) ops outs (c', p').
Proof.
  induction ops as [|op ops IH]; intros b o i c p clean R A T Hp Cl outs b' E D; cbn [run_bops] in E.
  - injection E as <- <-. exists o, i, c, p. split; [exact R|]. split; [auto with frame|constructor].
  - destruct (run_bop k op b) as [out b1] eqn:E1. destruct (run_bops k ops b1) as [outs1 b2] eqn:E2.
    injection E as <- <-. cbn [combine] in D.
    destruct (bstep_ok k b o i c p op clean R (or_introl A) T Hp Cl out b1 (combine ops outs1) E1 D)
      as (o1 & i1 & c1 & p1 & clean1 & R1 & V1 & S1 & Cl1 & D1).
    destruct (IH b1 o1 i1 c1 p1 clean1 R1 ltac:(rewrite (so_app _ _ (ev_o _ _ _ _ V1)); exact A) (tameb_evolves _ _ _ _ _ V1 T) (no_epipe_evolves _ _ _ _ V1 Hp) Cl1 outs1 b2 E2 D1)
      as (o2 & i2 & c2 & p2 & R2 & V2 & S2).
    exists o2, i2, c2, p2. split; [exact R2|]. split; [eapply evolves_trans; eauto|econstructor; eauto].
Qed.

Lemma fresh_rep k f size w o i : live f w o i -> 0 < size ->
  (can_read k = true -> f_readable f = true) -> (can_write k = true -> f_writable f = true) ->
  rep k (fresh f size w) o i (n_data i) (o_pos o).
Proof.
  intros L S Rf Wf. pose proof (lv_pos _ _ _ _ L).
  constructor; cbn [fresh b_raw b_w b_size b_rbuf b_rpos b_wbuf]; auto; try congruence; try (cbn; lia). apply slice_nil.
Qed.

(** * Writers whose system calls may fail *)

Lemma wstep_ok b o i c p op : rep BWriter b o i c p -> o_app o = false ->
  forall out b', run_bop BWriter op b = (out, b') ->
  exists o' i' c' p', rep BWriter b' o' i' c' p' /\ evolves b b' o o' /\ wstep (c, p) op out (c', p').
Proof.
  intros R A out b' E. pose proof (rp_nn _ _ _ _ _ _ R) as Pn. assert (T : tameb True b o) by (left; auto).
  assert (Er : b_rbuf b = []) by apply (rp_nord _ _ _ _ _ _ R eq_refl).
  destruct op; cbn [run_bop] in E.
  - cbn in E. injection E as <- <-. exists o, i, c, p. split; [exact R|]. split; [auto with frame|].
    apply WS_ok, BA_unreadable; cbn; eauto.
  - cbn in E. injection E as <- <-. exists o, i, c, p. split; [exact R|]. split; [auto with frame|].
    apply WS_ok, BA_unreadable; cbn; eauto.
  - cbn in E. injection E as <- <-. exists o, i, c, p. split; [exact R|]. split; [auto with frame|].
    now apply WS_ok, BA_nopeek.
  - destruct (b_write_ok True BWriter b o i c p d R T eq_refl) as (r & b1 & o1 & i1 & c1 & p1 & E1 & R1 & V1 & _ & Wn & _).
    rewrite A in Wn. rewrite E1 in E. cbn in E. inversion Wn; subst r c1 p1; cbn in E; injection E as <- <-;
      eexists o1, i1, _, _; (split; [exact R1|]; split; [exact V1|]).
    + apply WS_ok, BA_write; auto. now apply stored_write.
    + match goal with H : os_or_block _ |- _ => destruct H as [(x & ->)| ->] end; [apply WS_fail|apply WS_block].
    + apply WS_write_fail. now apply stored_write.
    + unfold after, put, wat. rewrite len_firstn. replace (Z.min (Z.of_nat (Z.to_nat n)) (len d)) with n by lia.
      apply WS_write_block; auto. now apply stored_write.
  - destruct (b_seek_ok True BWriter b o i c p offset whence R T) as (r & b1 & o1 & i1 & E1 & V1 & X).
    rewrite E1 in E.
    destruct X as [(t & St & Ht & -> & R1 & _)|[(t & St & Ht & -> & X)|[(St & -> & R1 & _)|(_ & (e & -> & He) & R1 & _)]]];
      cbn in E; injection E as <- <-.
    + exists o1, i1, c, t. split; [exact R1|]. split; [exact V1|]. now apply WS_ok, BA_seek.
    + exists o1, i1, c, p. split; [apply X; discriminate|]. split; [exact V1|]. apply WS_ok. now apply (BA_seek_neg _ _ _ _ _ t).
    + exists o1, i1, c, p. split; [exact R1|]. split; [exact V1|]. now apply WS_ok, BA_seek_bad.
    + exists o1, i1, c, p. split; [exact R1|]. split; [exact V1|]. destruct He as [(x & ->)| ->]; [apply WS_fail|apply WS_block].
  - destruct (b_tell_ok BWriter b o i c p R (epos_plain _ _ _ A)) as (b1 & E1 & R1 & V1 & _). rewrite E1 in E. cbn in E. injection E as <- <-.
    exists o, i, c, p. split; [exact R1|]. split; [exact V1|]. apply WS_ok, BA_tell.
  - destruct (b_fsize_ok True BWriter b o i c p R T) as (r & b1 & o1 & i1 & E1 & R1 & V1 & _ & [[-> _]|(_ & e & -> & He)]);
      rewrite E1 in E; cbn in E; injection E as <- <-; exists o1, i1, c, p; (split; [exact R1|]; split; [exact V1|]).
    + apply WS_ok, BA_size.
    + destruct He as [(x & ->)| ->]; [apply WS_fail|apply WS_block].
  - destruct (b_flush_ok True BWriter b o i c p R T) as (r & b1 & o1 & i1 & E1 & [R1 V1 _ _ _ [[-> _]|(_ & _ & e & -> & He)]]);
      rewrite E1 in E; cbn in E; injection E as <- <-; exists o1, i1, c, p; (split; [exact R1|]; split; [exact V1|]).
    + apply WS_ok, BA_flush.
    + destruct He as [(x & ->)| ->]; [apply WS_fail|apply WS_block].
  - destruct (b_truncate_ok True BWriter b o i c p size R ltac:(discriminate) T eq_refl Er) as (r & b1 & o1 & i1 & E1 & V1 & _ & X).
    rewrite E1 in E. unfold trunc_outcome in X.
    destruct X as [(Hn & -> & R1)|[(Hn & -> & R1)|(_ & (e & -> & He) & R1)]]; cbn in E; injection E as <- <-;
      eexists o1, i1, _, p; (split; [exact R1|]; split; [exact V1|]).
    + apply WS_ok. eapply BA_trunc; eauto. now apply set_size_resized.
    + apply WS_fail.
    + destruct He as [(x & ->)| ->]; [apply WS_fail|apply WS_block].
Qed.

Lemma wruns_ok : forall ops b o i c p, rep BWriter b o i c p -> o_app o = false ->
  forall outs b', run_bops BWriter ops b = (outs, b') ->
  exists o' i' c' p', rep BWriter b' o' i' c' p' /\ evolves b b' o o' /\ wruns (c, p) ops outs (c', p').
Proof.
  induction ops as [|op ops IH]; intros b o i c p R A outs b' E; cbn [run_bops] in E.
  - injection E as <- <-. exists o, i, c, p. split; [exact R|]. split; [auto with frame|constructor].
  - destruct (run_bop BWriter op b) as [out b1] eqn:E1. destruct (run_bops BWriter ops b1) as [outs1 b2] eqn:E2.
    injection E as <- <-. destruct (wstep_ok b o i c p op R A out b1 E1) as (o1 & i1 & c1 & p1 & R1 & V1 & S1).
    destruct (IH b1 o1 i1 c1 p1 R1 ltac:(rewrite (so_app _ _ (ev_o _ _ _ _ V1)); exact A) outs1 b2 E2) as (o2 & i2 & c2 & p2 & R2 & V2 & S2).
    exists o2, i2, c2, p2. split; [exact R2|]. split; [eapply evolves_trans; eauto|econstructor; eauto].
Qed.
