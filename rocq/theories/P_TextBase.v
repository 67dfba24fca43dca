(** Text streams over buffered streams: what the buffer does for them, and the invariant of a text stream that is read. *)
From Coq Require Import ZArith List Bool Lia.
From Verif Require Import M_Base M_Registry M_World M_Raw M_Buffered M_Newline M_Text S_Bytes S_Raw S_Buffered S_Newline S_Text
  P_Bytes P_Raw P_Buffered P_BufOps P_Newline P_Decode.
Import ListNotations.
Open Scope Z_scope.

(** The bytes from position [p] on. *)
Definition from (p : Z) (C : list Z) : list Z := skipn (Z.to_nat p) C.
(** The bytes between the positions [q] and [p]. *)
Definition seg (C : list Z) (q : Z) (x : list Z) (p : Z) : Prop := 0 <= q /\ p = q + len x /\ from q C = x ++ from p C.

Lemma seg_nil C p : 0 <= p -> seg C p [] p.
Proof. intros H. split; [exact H|]. split; [cbn; lia|reflexivity]. Qed.
Lemma seg_split C q x y p : seg C q (x ++ y) p -> seg C q x (q + len x) /\ seg C (q + len x) y p.
Proof.
  intros (Hq & -> & E). rewrite len_app. pose proof (len_nonneg x). pose proof (len_nonneg y).
  assert (F : from (q + len x) C = y ++ from (q + (len x + len y)) C).
  { transitivity (skipn (length x) (from q C)).
    - unfold from. rewrite skipn_skipn. f_equal. unfold len. lia.
    - rewrite E. rewrite <- app_assoc, skipn_app, skipn_all, Nat.sub_diag. rewrite len_app. reflexivity. }
  split; (split; [lia|]; split; [lia|]).
  - rewrite F. rewrite E. now rewrite <- app_assoc, len_app.
  - exact F.
Qed.
Lemma seg_app C q x m y p : seg C q x m -> seg C m y p -> seg C q (x ++ y) p.
Proof.
  intros (Hq & -> & E) (Hm & -> & F). split; [exact Hq|]. rewrite len_app. split; [lia|]. rewrite E, F, <- app_assoc. reflexivity.
Qed.
Lemma slice_seg C p d : 0 <= p -> slice_at C p d -> seg C p d (p + len d).
Proof.
  intros Hp S. split; [exact Hp|]. split; [reflexivity|]. unfold from. rewrite (slice_at_eq _ _ _ Hp S) at 1.
  rewrite <- (firstn_skipn (length d) (skipn (Z.to_nat p) C)) at 1. f_equal. rewrite skipn_skipn. f_equal. unfold len. lia.
Qed.
Lemma seg_slice C q x p : seg C q x p -> len x <= Z.max 0 (len C - q).
Proof.
  intros (Hq & -> & E). apply (f_equal (@length _)) in E. rewrite app_length in E. unfold from in E. rewrite !skipn_length in E. unfold len in *. lia.
Qed.
Lemma from_end C p : len C <= p -> from p C = [].
Proof. intros H. unfold from. apply skipn_all2. unfold len in H. lia. Qed.
Lemma from_len C p : (length (from p C) <= length C)%nat.
Proof. unfold from. rewrite skipn_length. lia. Qed.

Definition maxpos : Z := 2 ^ 63.

(** The buffer of a text stream stands for content [C] and position [p], and has nothing to write. *)
Definition bst (k : bkind) (b : bstate) (C : list Z) (p : Z) : Prop :=
  exists o i, rep k b o i C p /\ tameb False b o /\ no_epipe (b_w b) /\ b_wbuf b = [] /\ can_read k = true /\ o_app o = false.

Section Buffer.
  Variables (k : bkind) (C : list Z).

  Lemma bst_pos b p : bst k b C p -> 0 <= p.
  Proof. intros (o & i & R & _). apply (rp_nn _ _ _ _ _ _ R). Qed.
  Lemma bst_open b p : bst k b C p -> f_closed (b_raw b) = false.
  Proof. intros (o & i & R & _). apply (lv_open _ _ _ _ (rp_live _ _ _ _ _ _ R)). Qed.
  Lemma bst_seekable b p : bst k b C p -> f_seekable (b_raw b) = true.
  Proof. intros (o & i & R & _). apply (lv_seek _ _ _ _ (rp_live _ _ _ _ _ _ R)). Qed.
  Lemma bst_fuel b p : bst k b C p -> read_fuel b = (Ok (S (length C)), b).
  Proof.
    intros (o & i & R & _ & _ & W & _). rewrite (read_fuel_live _ _ _ (rp_live _ _ _ _ _ _ R)).
    now destruct (rep_flat _ _ _ _ _ _ R W) as [-> _].
  Qed.

  Lemma bst_read1 b p : bst k b C p ->
    exists d b', b_read1 k CHUNK_SIZE b = (Ok (Some d), b') /\ seg C p d (p + len d) /\ bst k b' C (p + len d)
      /\ (d = [] -> from p C = []).
  Proof.
    intros (o & i & R & T & N & W & K & A). destruct (b_read1_ok k b o i C p CHUNK_SIZE R T N K) as (r & b' & o' & i' & E & V & d & -> & (G1 & G2) & S & R' & W').
    exists d, b'. split; [exact E|]. split; [apply slice_seg; [apply (rp_nn _ _ _ _ _ _ R)|exact S]|]. split.
    - exists o', i'. split; [exact R'|]. split; [eapply tameb_evolves; eauto|]. split; [eapply no_epipe_evolves; eauto|]. split; [auto|]. split; [auto|]. rewrite (so_app _ _ (ev_o _ _ _ _ V)); exact A.
    - intros D. destruct (G2 D) as [X|X]; [discriminate X|]. now apply from_end.
  Qed.

  Lemma bst_read_all b p : bst k b C p ->
    exists b', b_read k None b = (Ok (Some (from p C)), b') /\ bst k b' C (p + len (from p C)).
  Proof.
    intros (o & i & R & T & N & W & K & A). destruct (b_read_ok k b o i C p None R T N K Logic.I) as (r & b' & o' & i' & E & V & d & -> & (G & _) & S & R' & W').
    pose proof (rp_nn _ _ _ _ _ _ R) as Pn.
    assert (D : d = from p C).
    { rewrite (slice_at_eq _ _ _ Pn S). unfold from. apply firstn_all2. rewrite skipn_length. unfold len in G. lia. }
    subst d. exists b'. split; [exact E|]. exists o', i'. split; [exact R'|]. split; [eapply tameb_evolves; eauto|]. split; [eapply no_epipe_evolves; eauto|]. split; [auto|]. split; [auto|]. rewrite (so_app _ _ (ev_o _ _ _ _ V)); exact A.
  Qed.

  Lemma bst_read_n b q x p : bst k b C q -> seg C q x p ->
    exists b', b_read k (Some (len x)) b = (Ok (Some x), b') /\ bst k b' C p.
  Proof.
    intros (o & i & R & T & N & W & K & A) Sx. pose proof (len_nonneg x) as Lx.
    destruct (b_read_ok k b o i C q (Some (len x)) R T N K) as (r & b' & o' & i' & E & V & d & -> & G & S & R' & W'); [cbn; lia|].
    cbn in G. destruct (Z.eqb_spec (len x) (-1)); [lia|].
    pose proof (seg_slice _ _ _ _ Sx) as M. rewrite Z.min_l in G by lia.
    assert (D : d = x).
    { pose proof (slice_seg _ _ _ (rp_nn _ _ _ _ _ _ R) S) as (_ & _ & Ed). destruct Sx as (_ & _ & Ex). rewrite Ex in Ed.
      symmetry in Ed. apply app_same_len in Ed as [Ed _]; [exact Ed|]. unfold len in G. lia. }
    subst d. exists b'. split; [exact E|]. destruct Sx as (_ & -> & _). exists o', i'. split; [exact R'|].
    split; [eapply tameb_evolves; eauto|]. split; [eapply no_epipe_evolves; eauto|]. split; [auto|]. split; [auto|]. rewrite (so_app _ _ (ev_o _ _ _ _ V)); exact A.
  Qed.

  Lemma bst_flush b p : bst k b C p -> exists b', b_flush k b = (Ok tt, b') /\ bst k b' C p.
  Proof.
    intros (o & i & R & T & N & W & K & A). destruct (b_flush_ok False k b o i C p R T) as (r & b' & o' & i' & E & [R' V _ _ _ [(-> & W')|([] & _)]]).
    exists b'. split; [exact E|]. exists o', i'. split; [exact R'|]. split; [eapply tameb_evolves; eauto|]. split; [eapply no_epipe_evolves; eauto|]. split; [auto|]. split; [auto|]. rewrite (so_app _ _ (ev_o _ _ _ _ V)); exact A.
  Qed.
  Lemma bst_tell b p : bst k b C p -> exists b', b_tell k b = (Ok p, b') /\ bst k b' C p.
  Proof.
    intros (o & i & R & T & N & W & K & A). destruct (b_tell_ok k b o i C p R (epos_clean _ _ _ W)) as (b' & E & R' & V & _ & _ & W').
    exists b'. split; [exact E|]. exists o, i. split; [exact R'|]. split; [eapply tameb_evolves; eauto|]. split; [eapply no_epipe_evolves; eauto|]. split; [congruence|auto].
  Qed.
  Lemma bst_seek b p q : bst k b C p -> 0 <= q -> exists b', b_seek k q 0 b = (Ok q, b') /\ bst k b' C q.
  Proof.
    intros (o & i & R & T & N & W & K & A) Hq. destruct (b_seek_ok False k b o i C p q 0 R T) as (r & b' & o' & i' & E & V & S).
    destruct S as [(t & X & Ht & -> & R' & _ & W')|[(t & X & Ht & _)|[(X & _)|([] & _)]]]; cbn in X; try discriminate X.
    - injection X as <-. exists b'. split; [exact E|]. exists o', i'. split; [exact R'|]. split; [eapply tameb_evolves; eauto|]. split; [eapply no_epipe_evolves; eauto|]. split; [auto|]. split; [auto|]. rewrite (so_app _ _ (ev_o _ _ _ _ V)); exact A.
    - injection X as <-. lia.
  Qed.
  Lemma bst_seek_end b p : bst k b C p -> exists b', b_seek k 0 2 b = (Ok (len C), b') /\ bst k b' C (len C).
  Proof.
    intros (o & i & R & T & N & W & K & A). destruct (b_seek_ok False k b o i C p 0 2 R T) as (r & b' & o' & i' & E & V & S).
    assert (X0 : seek_target C p 0 2 = Some (len C)) by (unfold seek_target; cbn; now rewrite Z.add_0_r).
    pose proof (len_nonneg C).
    destruct S as [(t & X & Ht & -> & R' & _ & W')|[(t & X & Ht & _)|[(X & _)|([] & _)]]]; rewrite X0 in X; try discriminate X.
    - injection X as <-. exists b'. split; [exact E|]. exists o', i'. split; [exact R'|]. split; [eapply tameb_evolves; eauto|]. split; [eapply no_epipe_evolves; eauto|]. split; [auto|]. split; [auto|]. rewrite (so_app _ _ (ev_o _ _ _ _ V)); exact A.
    - injection X as <-. lia.
  Qed.
End Buffer.
