(** C104: threads that close a stream while others use it. *)
From Coq Require Import ZArith Ascii String List Bool Lia.
From Verif Require Import M_Base M_Modes M_Registry M_Kernel M_World M_Raw M_Buffered M_Threads M_Racing S_Bytes S_Raw S_LockFile S_Buffered
  S_Demo S_Confined P_Bytes P_Registry P_RegEff P_Raw P_Close P_Frame P_Threads S_Racing.
From Verif Require C_Confined.
Import ListNotations.
Open Scope Z_scope.

Section Race.
Variables (f : rawio) (fd : Z) (u : uid).
Hypothesis Hopen : f_closed f = false.
Hypothesis Hfd : f_fd f = Some fd.
Hypothesis Huid : f_uid f = Some u.

(** * Closing *)
Definition ours (w : world) (d : Z) : Prop := exists o, w_fds w d = Some o /\ o_uid o = u.
Definition pends (w : world) : Prop := forall d, In d (pending w u) -> ours w d.
Definition live (w : world) : Prop := ours w fd /\ ~ In fd (pending w u).

Lemma spares_refl w : spares u w w.
Proof. split; auto. Qed.
Lemma spares_trans a b c : spares u a b -> spares u b c -> spares u a c.
Proof. intros [A1 A2] [B1 B2]. split; [eauto|]. intros v Hv. rewrite B2, A2; auto. Qed.
Lemma spares_same w w' : w_fds w' = w_fds w -> w_inodes w' = w_inodes w -> spares u w w'.
Proof. intros E1 E2. split; intros; congruence. Qed.
Lemma pending_ED w : pending w u = ED (w_pid w) (w_reg w) u.
Proof. reflexivity. Qed.

Lemma close_all_spares : forall l w r w', close_all l w = (r, w') -> (forall d o, In d l -> w_fds w d = Some o -> o_uid o = u) ->
  spares u w w' /\ w_reg w' = w_reg w /\ w_pid w' = w_pid w /\ (forall d, ~ In d l -> w_fds w' d = w_fds w d).
Proof.
  induction l as [|d l IH]; intros w r w' E H; cbn [close_all] in E.
  { injection E as <- <-. split; [apply spares_refl|auto]. }
  unfold bind, sys_close in E. destruct (w_fds w d) as [o|] eqn:Ed; [|injection E as <- <-; split; [apply spares_refl|auto]].
  set (w1 := set_kern _ _) in E. 
  assert (X : w_reg w1 = w_reg w /\ w_pid w1 = w_pid w /\ w_inodes w1 = w_inodes w /\ w_fds w1 = upd Z.eqb (w_fds w) d None) by (repeat split).
  clearbody w1. destruct X as (X1 & X2 & X3 & X4).
  destruct (IH w1 r w' E) as (A & B & C & D).
  { intros d' o' Hin. rewrite X4. unfold upd. destruct (d =? d'); [discriminate|]. intros G. apply (H d' o'); [now right|exact G]. }
  split; [|split; [congruence|split; [congruence|]]].
  - eapply spares_trans; [|exact A]. split; [|intros; now rewrite X3].
    intros d' o' G N. rewrite X4. unfold upd. destruct (d =? d') eqn:Eq; [|exact G]. apply Z.eqb_eq in Eq. subst d'.
    exfalso. apply N. apply (H d o'); [now left|exact G].
  - intros d' N. rewrite D by (intros Y; apply N; now right). rewrite X4. unfold upd. destruct (d =? d') eqn:Eq; [|reflexivity].
    apply Z.eqb_eq in Eq. exfalso. apply N. now left.
Qed.

Record tidy (w w' : world) : Prop := mkTidy {
  td_spares : spares u w w'; td_pid : w_pid w' = w_pid w; td_pend : pends w'; td_incl : incl (pending w' u) (pending w u);
  td_fds : forall d, ~ In d (pending w u) -> w_fds w' d = w_fds w d }.
Lemma tidy_trans a b c : tidy a b -> tidy b c -> tidy a c.
Proof.
  intros [A1 A2 A3 A4 A5] [B1 B2 B3 B4 B5]. constructor; auto.
  - eapply spares_trans; eauto.
  - congruence.
  - eapply incl_tran; eauto.
  - intros d N. rewrite B5 by (intros Y; apply N, A4, Y). now apply A5.
Qed.
Lemma tidy_reg w r : (ED (w_pid w) r u = ED (w_pid w) (w_reg w) u) -> pends w -> tidy w (set_reg w r).
Proof.
  intros E P. assert (X : pending (set_reg w r) u = pending w u) by (rewrite !pending_ED; exact E).
  constructor; auto.
  - now apply spares_same.
  - intros d. rewrite X. apply P.
  - rewrite X. apply incl_refl.
Qed.
Lemma purge_tidy w r w' : purge_pending u w = (r, w') -> pends w -> tidy w w'.
Proof.
  unfold purge_pending. intros E P.
  destruct (unique_id_has_locks (w_pid w) (w_reg w) u) as [has r1] eqn:E1. apply haslocks_eff in E1 as [V _]. destruct (V u) as (_ & V2 & _).
  destruct has; [injection E as <- <-; now apply tidy_reg|].
  destruct (remove_unique_id_data (w_pid w) r1 u) as [fds r2] eqn:E2. apply takedata_eff in E2 as (_ & _ & _ & D0 & D1).
  destruct (close_all fds (set_reg w r2)) as [r3 w3] eqn:E3.
  assert (Ef : fds = pending w u) by (rewrite pending_ED; congruence).
  destruct (close_all_spares _ _ _ _ E3) as (A & B & C & D).
  { intros d o Hin G. rewrite Ef in Hin. destruct (P d Hin) as (o' & G1 & G2). cbn in G. congruence. }
  assert (w' = w3) as -> by (destruct r3; injection E as _ <-; reflexivity).
  assert (X : pending w3 u = []) by (rewrite pending_ED, B, C; exact D0).
  constructor; auto.
  - intros d. rewrite X. intros [].
  - rewrite X. intros d [].
  - intros d N. rewrite <- Ef in N. exact (D d N).
Qed.
Lemma sys_unlock_same d off n w r w' : sys_unlock d off n w = (r, w') ->
  w_fds w' = w_fds w /\ w_inodes w' = w_inodes w /\ w_reg w' = w_reg w /\ w_pid w' = w_pid w.
Proof.
  unfold sys_unlock, bind, get_fd. destruct (w_fds w d) as [o|]; [|intros [= <- <-]; auto].
  destruct (w_inodes w (o_uid o)) as [i|]; [|intros [= <- <-]; auto].
  rewrite next_io_eq.
  destruct (hd IoFull (w_io w)); intros E; repeat match type of E with context [if ?c then _ else _] => destruct c | context [match ?c with _ => _ end] => destruct c end; injection E as <- <-; auto.
Qed.
Lemma tidy_plain w w' : w_fds w' = w_fds w -> w_inodes w' = w_inodes w -> w_reg w' = w_reg w -> w_pid w' = w_pid w -> pends w -> tidy w w'.
Proof.
  intros E1 E2 E3 E4 P. assert (X : pending w' u = pending w u) by (rewrite !pending_ED; congruence).
  constructor; auto.
  - now apply spares_same.
  - intros d. rewrite X. unfold ours. rewrite E1. apply P.
  - rewrite X. apply incl_refl.
  - intros; congruence.
Qed.
Lemma tidy_pends w w' : tidy w w' -> pends w'.
Proof. apply td_pend. Qed.
Lemma unlock_tidy n off w r w' : inner_file_unlock f n off w = (r, w') -> pends w -> tidy w w'.
Proof.
  unfold inner_file_unlock, finally, bind. intros E P.
  destruct (sys_unlock (fd_of f) off (klen n) w) as [r1 w1] eqn:E1. apply sys_unlock_same in E1 as (A & B & C & D).
  pose proof (tidy_plain w w1 A B C D P) as T1.
  replace (uid_of f) with u in E by (unfold uid_of; now rewrite Huid).
  destruct (purge_pending u w1) as [r2 w2] eqn:E2. pose proof (purge_tidy _ _ _ E2 (td_pend _ _ T1)) as T2.
  assert (w' = w2) as -> by (destruct r2; cbn in E; injection E as _ <-; reflexivity).
  eapply tidy_trans; eauto.
Qed.
Lemma unlock_each_tidy : forall l w r w', unlock_each f l w = (r, w') -> pends w -> tidy w w'.
Proof.
  induction l as [|lk l IH]; intros w r w' E P; cbn [unlock_each] in E.
  { injection E as <- <-. now apply tidy_plain. }
  unfold bind in E. destruct (inner_file_unlock f _ (lk_start lk) w) as [r1 w1] eqn:E1.
  pose proof (unlock_tidy _ _ _ _ _ E1 P) as T. destruct r1; [|injection E as <- <-; exact T].
  eapply tidy_trans; [exact T|]. eapply IH; [exact E|apply T].
Qed.
Lemma raw_close_spares w r w' : raw_close f w = (r, w') -> live w -> pends w -> spares u w w' /\ pends w'.
Proof.
  unfold raw_close. rewrite Hopen, Huid, Hfd. unfold bind. intros E [L N] P.
  destruct (remove_file_locks (w_pid w) (w_reg w) u fd) as [l reg] eqn:E1. apply remove_eff in E1 as (_ & E1 & _).
  pose proof (tidy_reg w reg (E1 u) P) as T1.
  destruct (unlock_each f l (set_reg w reg)) as [r2 w2] eqn:E2.
  pose proof (tidy_trans _ _ _ T1 (unlock_each_tidy _ _ _ _ E2 (td_pend _ _ T1))) as T2.
  destruct r2 as [x|e]; [|injection E as <- <-; split; apply T2].
  assert (L2 : ours w2 fd) by (destruct L as (o & L1 & L2); exists o; rewrite (td_fds _ _ T2 fd N); auto).
  revert E. unfold inner_close_streams. rewrite Huid, Hfd. destruct (f_closefd f); [|intros [= <- <-]; split; apply T2].
  unfold bind. destruct (Z.eq_dec fd 0) as [F0|F0].
  { unfold add_unique_id_data. rewrite F0. cbn. intros [= <- <-]. split; apply (tidy_trans _ _ _ T2 (tidy_reg w2 (w_reg w2) eq_refl (td_pend _ _ T2))). }
  destruct (adddata_eff (w_pid w2) (w_reg w2) u fd F0) as (r3 & E3 & _ & _ & _ & D3). rewrite E3.
  assert (X : pending (set_reg w2 r3) u = pending w2 u ++ [fd]) by (rewrite !pending_ED; exact D3).
  assert (P3 : pends (set_reg w2 r3)).
  { intros d. rewrite X. intros H. apply in_app_or in H. destruct H as [H|[<-|[]]]; [apply (td_pend _ _ T2 d H)|exact L2]. }
  destruct (purge_pending u (set_reg w2 r3)) as [r4 w4] eqn:E4. pose proof (purge_tidy _ _ _ E4 P3) as T4.
  assert (S4 : spares u w w4) by (eapply spares_trans; [apply T2|]; eapply spares_trans; [|apply T4]; now apply spares_same).
  destruct r4 as [y|e]; [|intros [= <- <-]; split; [exact S4|apply T4]].
  destruct (try_deleting_unique_id_entry (w_pid w4) (w_reg w4) u) as [bb r5] eqn:E5. apply trydel_eff in E5. destruct (E5 u) as (_ & V & _).
  intros [= <- <-]. pose proof (tidy_reg w4 r5 V (td_pend _ _ T4)) as T5. split; [eapply spares_trans; [exact S4|apply T5]|apply T5].
Qed.

(** * Programs *)
Definition good (b : bstate) : Prop :=
  (b_raw b = f \/ b_raw b = set_closed f) /\ pends (b_w b) /\ (b_raw b = f -> live (b_w b)).
Lemma closed_other : set_closed f <> f.
Proof. intros E. pose proof (f_equal f_closed E) as X. cbn in X. congruence. Qed.

(** The lock that keeps the threads apart, and where a thread is: not holding it; holding it, the stream being [R], and known to have its
    descriptor if [al]. *)
Variable L : lk.
(** What a step may do to other files. *)
Variable SP : world -> world -> Prop.
Hypothesis Hsp : forall w w', spares u w w' -> SP w w'.
Lemma SP_refl w : SP w w.
Proof. apply Hsp, spares_refl. Qed.
Definition is_L (l : lk) : bool := match l, L with LRead, LRead | LWrite, LWrite | LMutex, LMutex => true | _, _ => false end.
Lemma is_L_true l : is_L l = true -> l = L.
Proof. unfold is_L. destruct l, L; congruence. Qed.
Inductive place : Type := Out | In_ (R : rawio) (al : bool).

Fixpoint okp {A} (Q : A -> place -> Prop) (p : prog A) (st : place) : Prop :=
  match p with
  | PRet a => Q a st
  | PAct m k =>
      match st with
      | Out => forall b y b', good b -> m b = (y, b') ->
          good b' /\ SP (b_w b) (b_w b') /\ b_raw b' = b_raw b /\ (live (b_w b) -> live (b_w b')) /\ okp Q (k y) Out
      | In_ R al => forall b y b', good b -> b_raw b = R -> (al = true -> live (b_w b)) -> m b = (y, b') ->
          good b' /\ SP (b_w b) (b_w b') /\ exists al', (al' = true -> live (b_w b')) /\ okp Q (k y) (In_ (b_raw b') al')
      end
  | PAcq l q =>
      match st with
      | Out => if is_L l then forall R, okp Q q (In_ R false) else okp Q q Out
      | In_ R al => is_L l = false /\ okp Q q (In_ R al)
      end
  | PRel l q =>
      match st with
      | Out => is_L l = false /\ okp Q q Out
      | In_ R al => if is_L l then okp Q q Out else okp Q q (In_ R al)
      end
  end.
Lemma okp_seq {A C} (p : prog A) (g : A -> prog C) (Q : C -> place -> Prop) :
  forall st, okp (fun a st' => okp Q (g a) st') p st -> okp Q (pseq p g) st.
Proof.
  induction p as [a|X m k IH|l p IH|l p IH]; intros st H; cbn [pseq okp] in *; auto.
  - destruct st as [|R al].
    + intros b y b' G E. destruct (H b y b' G E) as (H1 & H2 & H3 & H4 & H5). auto 8.
    + intros b y b' G E1 E2 E. destruct (H b y b' G E1 E2 E) as (H1 & H2 & al' & H3 & H4). eauto 8.
  - destruct st as [|R al]; [destruct (is_L l); auto|destruct H; auto].
  - destruct st as [|R al]; [destruct H; auto|destruct (is_L l); auto].
Qed.
Lemma okp_post {A} (p : prog A) (Q Q' : A -> place -> Prop) : (forall a st, Q a st -> Q' a st) -> forall st, okp Q p st -> okp Q' p st.
Proof.
  intros HQ. induction p as [a|X m k IH|l p IH|l p IH]; intros st H; cbn [okp] in *; auto.
  - destruct st as [|R al].
    + intros b y b' G E. destruct (H b y b' G E) as (H1 & H2 & H3 & H4 & H5). auto 8.
    + intros b y b' G E1 E2 E. destruct (H b y b' G E1 E2 E) as (H1 & H2 & al' & H3 & H4). eauto 8.
  - destruct st as [|R al]; [destruct (is_L l); auto|destruct H; auto].
  - destruct st as [|R al]; [destruct H; auto|destruct (is_L l); auto].
Qed.

Definition inside {A} (a : A) (st : place) : Prop := exists R al, st = In_ R al.
Definition outside {A} (a : A) (st : place) : Prop := st = Out.
(** Programs for a thread that holds the lock ... *)
Definition smooth {A} (p : prog A) : Prop := forall R al, okp inside p (In_ R al).
(** ... and that does not. *)
Definition clear {A} (p : prog A) : Prop := okp outside p Out.

Lemma smooth_ret {A} (a : A) : smooth (PRet a).
Proof. intros R al. cbn. red. eauto. Qed.
Lemma smooth_seq {A C} (p : prog A) (g : A -> prog C) : smooth p -> (forall a, smooth (g a)) -> smooth (pseq p g).
Proof. intros H G R al. apply okp_seq. eapply okp_post; [|apply H]. intros a st (R' & al' & ->). apply G. Qed.
Lemma smooth_bind {A C} (p : prog (res A)) (g : A -> prog (res C)) : smooth p -> (forall a, smooth (g a)) -> smooth (pbind p g).
Proof. intros H G. apply smooth_seq; [exact H|]. intros [a|e]; [apply G|apply smooth_ret]. Qed.
Lemma smooth_pure {X} (m : B X) : (forall b, b_raw (snd (m b)) = b_raw b /\ b_w (snd (m b)) = b_w b) -> smooth (act m).
Proof.
  intros H R al b y b' G E1 E2 E. specialize (H b). rewrite E in H. cbn [snd] in H. destruct H as [H1 H2].
  split; [unfold good in *; now rewrite H1, H2|]. split; [rewrite H2; apply SP_refl|]. exists false. split; [discriminate|]. cbn. red. eauto.
Qed.
Lemma smooth_attr {X} (g : bstate -> X) : smooth (attr g).
Proof. apply smooth_pure. auto. Qed.
Lemma smooth_lk {A} l (p : prog A) : is_L l = false -> smooth p -> smooth (with_lk l p).
Proof.
  intros N H R al. cbn [with_lk okp]. split; [exact N|]. apply okp_seq. eapply okp_post; [|apply H].
  intros a st (R' & al' & ->). cbn [okp]. rewrite N. red. eauto.
Qed.
Lemma clear_ret {A} (a : A) : clear (PRet a).
Proof. reflexivity. Qed.
Lemma clear_seq {A C} (p : prog A) (g : A -> prog C) : clear p -> (forall a, clear (g a)) -> clear (pseq p g).
Proof. intros H G. apply okp_seq. eapply okp_post; [|apply H]. intros a st ->. apply G. Qed.
Lemma clear_bind {A C} (p : prog (res A)) (g : A -> prog (res C)) : clear p -> (forall a, clear (g a)) -> clear (pbind p g).
Proof. intros H G. apply clear_seq; [exact H|]. intros [a|e]; [apply G|apply clear_ret]. Qed.
Lemma clear_pure {X} (m : B X) : (forall b, b_raw (snd (m b)) = b_raw b /\ b_w (snd (m b)) = b_w b) -> clear (act m).
Proof.
  intros H b y b' G E. specialize (H b). rewrite E in H. cbn [snd] in H. destruct H as [H1 H2].
  split; [unfold good in *; now rewrite H1, H2|]. split; [rewrite H2; apply SP_refl|]. rewrite H2. split; [exact H1|]. split; [auto|]. reflexivity.
Qed.
Lemma clear_attr {X} (g : bstate -> X) : clear (attr g).
Proof. apply clear_pure. auto. Qed.
Lemma clear_lk {A} l (p : prog A) : is_L l = true -> smooth p -> clear (with_lk l p).
Proof.
  intros N H. red. cbn [with_lk okp]. rewrite N. intros R. apply okp_seq. eapply okp_post; [|apply H].
  intros a st (R' & al' & ->). cbn [okp]. rewrite N. reflexivity.
Qed.

(** Calls of the raw stream *)
Record tame {A} (m : rawio -> M A) : Prop := mkTame {
  tm_within : forall g, within (fd_of g) (m g);
  tm_closed : forall g w, f_closed g = true -> snd (m g w) = w }.
Lemma rawf_live w w' : rawf fd w w' -> live w -> pends w -> live w' /\ pends w' /\ spares u w w'.
Proof.
  intros R [(o & L1 & L2) N] P.
  assert (X : pending w' u = pending w u) by (rewrite !pending_ED, (rf_reg _ _ _ R), (rf_pid _ _ _ R); reflexivity).
  assert (O : ours w' fd).
  { pose proof (rf_fd _ _ _ R) as S. rewrite L1 in S. unfold same_ofd in S. destruct (w_fds w' fd) as [o'|] eqn:E; [|contradiction].
    exists o'. split; [exact E|]. destruct S as (S & _). congruence. }
  split; [split; [exact O|now rewrite X]|]. split.
  - intros d. rewrite X. intros Hd. destruct (Z.eq_dec d fd) as [->|Nd]; [exact O|]. unfold ours. rewrite (rf_fds _ _ _ R d Nd). now apply P.
  - split.
    + intros d o1 E Ne. destruct (Z.eq_dec d fd) as [->|Nd]; [congruence|]. now rewrite (rf_fds _ _ _ R d Nd).
    + intros v Nv. apply (rf_inodes _ _ _ R). intros o1 E. congruence.
Qed.
Lemma fd_of_f : fd_of f = fd.
Proof. unfold fd_of. now rewrite Hfd. Qed.
Lemma smooth_raw {A} (m : rawio -> M A) : tame m -> smooth (raw_call m).
Proof.
  intros [T1 T2] R al b y b' G E1 E2 E. injection E as <- <-. split; [exact G|]. split; [apply SP_refl|].
  exists false. split; [discriminate|]. rewrite E1. cbn [pseq okp]. clear b G E1 E2. intros b y b' G E1 _ E.
  destruct (m R (b_w b)) as [r w] eqn:Em. injection E as <- <-. cbn [set_world b_raw b_w].
  assert (X : good (set_world b w) /\ SP (b_w b) w).
  { destruct G as (G1 & G2 & G3). destruct G1 as [G1|G1].
    - assert (R = f) as -> by congruence. pose proof (T1 f _ _ _ Em) as W. rewrite fd_of_f in W.
      destruct (rawf_live _ _ W (G3 G1) G2) as (W1 & W2 & W3). split; [|exact (Hsp _ _ W3)]. split; [now left|]. split; [exact W2|auto].
    - assert (R = set_closed f) as -> by congruence. pose proof (T2 (set_closed f) (b_w b) eq_refl) as W. rewrite Em in W. cbn in W. subst w.
      split; [|apply SP_refl]. split; [now right|]. split; [exact G2|]. intros Y. cbn in Y. exfalso. apply closed_other. congruence. }
  destruct X as [X1 X2]. split; [exact X1|]. split; [exact X2|]. exists false. split; [discriminate|]. eexists _, _. reflexivity.
Qed.
Lemma smooth_closing : smooth raw_closing.
Proof.
  intros R al b y b' G E1 E2 E. injection E as <- <-. split; [exact G|]. split; [apply SP_refl|].
  exists false. split; [discriminate|]. rewrite E1. clear b G E1 E2. cbn [pseq]. destruct (f_closed R) eqn:Ec; [eexists _, _; reflexivity|].
  cbn [pseq okp]. intros b y b' G E1 _ E. injection E as <- <-. cbn [b_raw b_w].
  destruct G as (G1 & G2 & G3). destruct G1 as [G1|G1]; [|rewrite <- E1, G1 in Ec; discriminate].
  split. { split; [right; cbn; now rewrite G1|]. split; [exact G2|]. intros Y. cbn in Y. rewrite G1 in Y. now destruct closed_other. }
  split; [apply SP_refl|]. exists true. split; [intros _; now apply G3|].
  assert (R = f) as -> by congruence. rewrite G1. clear b E1 G1 G2 G3.
  intros b y b' (G1 & G2 & G3) E1 HL E. destruct (raw_close f (b_w b)) as [r w] eqn:Em. injection E as <- <-. cbn [set_world b_raw b_w].
  destruct (raw_close_spares _ _ _ Em (HL eq_refl) G2) as [S P]. split.
  { split; [now right|]. split; [exact P|]. intros Y. cbn in Y. exfalso. apply closed_other. congruence. }
  split; [exact (Hsp _ _ S)|]. exists false. split; [discriminate|]. eexists _, _. reflexivity.
Qed.
(** Calls that only ask: they may be made on a descriptor that is no longer that of the stream. *)
Definition asks {A} (m : rawio -> M A) : Prop := forall g w r w', m g w = (r, w') ->
  (forall d, w_fds w' d = w_fds w d) /\ w_inodes w' = w_inodes w /\ w_reg w' = w_reg w /\ w_pid w' = w_pid w.
Lemma clear_raw {A} (m : rawio -> M A) : asks m -> clear (raw_call m).
Proof.
  intros T b y b' G E. injection E as <- <-. split; [exact G|]. split; [apply SP_refl|]. split; [reflexivity|]. split; [auto|].
  cbn [pseq okp]. generalize (b_raw b). clear b G. intros R b y b' G E.
  destruct (m R (b_w b)) as [r w] eqn:Em. injection E as <- <-. cbn [set_world b_raw b_w].
  destruct (T _ _ _ _ Em) as (T1 & T2 & T3 & T4).
  assert (X : pending w u = pending (b_w b) u) by (rewrite !pending_ED; congruence).
  assert (Y : live (b_w b) -> live w). { intros [(o & Y1 & Y2) Y3]. split; [exists o; rewrite T1; auto|now rewrite X]. }
  split. { destruct G as (G1 & G2 & G3). split; [exact G1|]. split; [|intros Z; apply Y, G3, Z]. intros d. cbn [b_w set_world]. rewrite X. unfold ours. rewrite T1. apply G2. }
  split; [apply Hsp; split; [intros d o; rewrite T1; auto|intros; now rewrite T2]|]. split; [reflexivity|]. split; [exact Y|reflexivity].
Qed.

Lemma asks_tell : asks raw_tell.
Proof.
  intros g w r w'. unfold raw_tell, bind, check_closed. destruct (f_closed g); [intros [= <- <-]; auto|]. unfold inner_tell, sys_lseek, bind, ret.
  destruct (get_fd (fd_of g) w) as [r1 w1] eqn:E. apply get_fd_cases in E. destruct E as [-> [->|(o & i & Ho & Hi & ->)]]; [intros [= <- <-]; auto|].
  cbn. set (p := o_pos o + 0).
  assert (Hp : p = o_pos o) by (unfold p; lia). clearbody p. subst p.
  assert (X : forall r' : Z, (Ok r', upd_fd w (fd_of g) (Some (set_pos o (o_pos o)))) = (r, w') ->
     (forall d, w_fds w' d = w_fds w d) /\ w_inodes w' = w_inodes w /\ w_reg w' = w_reg w /\ w_pid w' = w_pid w).
  { intros r' [= <- <-]. repeat split. intros d. cbn. unfold upd. destruct (fd_of g =? d) eqn:Ed; [|reflexivity]. apply Z.eqb_eq in Ed. subst d.
    rewrite Ho. now destruct o. }
  destruct (n_kind i); try (intros [= <- <-]; auto; fail); destruct (o_pos o <? 0); try (intros [= <- <-]; auto; fail); apply X.
Qed.
Lemma asks_size : asks raw_size.
Proof.
  intros g w r w'. unfold raw_size, bind, check_closed. destruct (f_closed g); [intros [= <- <-]; auto|]. unfold inner_size, sys_fstat, bind, ret.
  destruct (get_fd (fd_of g) w) as [r1 w1] eqn:E. apply get_fd_cases in E. destruct E as [-> [->|(o & i & Ho & Hi & ->)]]; intros [= <- <-]; auto.
Qed.

Ltac closed_first := intros g w E; unfold check_seekable, check_readable, check_writable, bind, check_closed; rewrite E; reflexivity.
Lemma tame_tell : tame raw_tell.
Proof. split; [apply raw_tell_within|]. unfold raw_tell. closed_first. Qed.
Lemma tame_size : tame raw_size.
Proof. split; [apply raw_size_within|]. unfold raw_size. closed_first. Qed.
Lemma tame_seek off wh : tame (fun g => raw_seek g off wh).
Proof. split; [intros g; apply raw_seek_within|]. unfold raw_seek. closed_first. Qed.
Lemma tame_write d : tame (fun g => raw_write g d).
Proof. split; [intros g; apply raw_write_within|]. unfold raw_write. closed_first. Qed.
Lemma tame_read n : tame (fun g => raw_read g n).
Proof. split; [intros g; apply raw_read_within|]. unfold raw_read. closed_first. Qed.
Lemma tame_readall : tame raw_readall.
Proof. split; [apply raw_readall_within|]. intros g w E. unfold raw_readall, readall_fuel, bind, ret. cbn [readall_loop]. unfold raw_read_n, check_readable, bind, check_closed. rewrite E. reflexivity. Qed.
Lemma tame_truncate n : tame (fun g => raw_truncate g n).
Proof. split; [intros g; apply raw_truncate_within|]. unfold raw_truncate. closed_first. Qed.
Lemma tame_flush : tame raw_flush.
Proof. split; [intros g; apply check_closed_within|]. unfold raw_flush. closed_first. Qed.


(** * The methods *)
Hint Resolve tame_tell tame_size tame_seek tame_write tame_read tame_readall tame_truncate tame_flush smooth_raw smooth_ret smooth_attr smooth_closing
  clear_ret clear_attr : race.
Ltac pure := (apply smooth_pure || apply clear_pure); intros b; unfold b_check_closed, reset_read_buf, read_fuel, bind, on_raw, readall_fuel, ret; cbv beta zeta;
  repeat match goal with |- context [if ?c then _ else _] => destruct c end; split; reflexivity.
Ltac go := repeat first [match goal with |- forall _, _ => intro end | solve [auto with race] | solve [apply smooth_ret] | apply smooth_bind | apply smooth_seq | solve [pure]
  | match goal with |- smooth (if ?c then _ else _) => destruct c | |- smooth (match ?c with _ => _ end) => destruct c end].

Lemma s_flush_loop : forall n, smooth (r_flush_loop n).
Proof. induction n as [|n IH]; cbn [r_flush_loop]; go. Qed.
Lemma s_flush_unlocked : smooth r_flush_unlocked.
Proof. unfold r_flush_unlocked. go. apply s_flush_loop. Qed.
Hint Resolve s_flush_unlocked : race.
Definition s_write_body (d : list Z) : prog (res Z) :=
    (act b_check_closed ;~
     full <~ attr (fun b => b_size b <? Z.of_nat (Datatypes.length (b_wbuf b))) ;;
     (if full then r_flush_unlocked else pret tt) ;~
     act (fun b => (Ok tt, set_wbuf b (b_wbuf b ++ d))) ;~
     full <~ attr (fun b => b_size b <? Z.of_nat (Datatypes.length (b_wbuf b))) ;;
     let written := Z.of_nat (Datatypes.length d) in
     if full then
       pseq r_flush_unlocked (fun r =>
         match r with
         | Err (EBlocking x) =>
             act (fun b =>
                    if b_size b <? Z.of_nat (Datatypes.length (b_wbuf b)) then
                      let overage := Z.of_nat (Datatypes.length (b_wbuf b)) - b_size b in
                      (Err (EBlocking (written - overage)), set_wbuf b (firstn (Z.to_nat (b_size b)) (b_wbuf b)))
                    else (Ok written, b))
         | Err e => praise e
         | Ok _ => pret written
         end)
     else pret written).
Lemma s_writer_write d : smooth (s_write_body d).
Proof. unfold s_write_body. go. Qed.
Lemma s_mixin_seek p w : smooth (r_mixin_seek p w).
Proof. unfold r_mixin_seek. go. Qed.
Lemma s_mixin_tell : smooth r_mixin_tell.
Proof. unfold r_mixin_tell. go. Qed.
Lemma s_undo : smooth r_undo.
Proof. unfold r_undo. go. Qed.
Hint Resolve s_writer_write s_mixin_seek s_mixin_tell s_undo : race.
Lemma s_tell k : smooth (r_tell k).
Proof. destruct k; unfold r_tell, r_reader_tell, r_writer_tell; go. Qed.
Lemma s_fill w n : forall k out, smooth (r_fill_loop k w n out).
Proof. induction k as [|k IH]; intros out; cbn [r_fill_loop]; go. Qed.
Hint Resolve s_tell s_fill : race.
Lemma s_read_unlocked n : smooth (r_read_unlocked n).
Proof. unfold r_read_unlocked. go. Qed.
Hint Resolve s_read_unlocked : race.

(** In one piece, under the mutex of the wrapper. *)
Lemma s_with {A} l (p : prog A) : L = LMutex -> l <> LMutex -> smooth p -> smooth (with_lk l p).
Proof. intros HL N. apply smooth_lk. unfold is_L. rewrite HL. destruct l; auto. congruence. Qed.
Lemma s_flush k : L = LMutex -> smooth (r_flush k).
Proof. intros HL. destruct k; unfold r_flush; [go|apply s_with; auto with race; discriminate..]. Qed.
Lemma wrapped_clear k c : L = LMutex -> clear (wrapped k c).
Proof.
  intros HL. unfold wrapped, secured. apply clear_lk; [unfold is_L; now rewrite HL|].
  assert (W : forall A l (p : prog A), l <> LMutex -> smooth p -> smooth (with_lk l p)) by (intros; now apply s_with).
  pose proof (fun k => s_flush k HL) as F.
  assert (WW : forall d, smooth (r_writer_write d)) by (intros d; apply W; [discriminate|apply s_writer_write]).
  assert (WT : forall n, smooth (r_writer_truncate n)) by (intros n; apply W; [discriminate|]; go).
  assert (RR : forall n, smooth (r_reader_read n)).
  { intros n. unfold r_reader_read. destruct (match n with Some k0 => k0 <? -1 | None => false end); [go|]. apply W; [discriminate|go]. }
  assert (C : forall A k (p : prog A), smooth p -> smooth (closing k p)) by (intros A [] p Hp; cbn [closing]; auto; apply W; auto; discriminate).
  destruct c; cbn [bare]; unfold rlift; (apply smooth_seq; [|intros; apply smooth_ret]).
  - destruct k; cbn [r_read]; go; auto.
  - destruct k; cbn [r_write]; go; auto. apply W; [discriminate|]. go.
  - unfold r_seek. destruct (negb (valid_whence wh)); [go|]. destruct k; go; auto; (apply W; [discriminate|]; go).
  - apply s_tell.
  - destruct k; cbn [r_truncate]; go; auto.
  - apply F.
  - unfold r_size. go.
  - unfold r_close. apply smooth_bind; [apply C; go|]. intros cl. destruct cl; [go|]. apply smooth_seq; [apply F|]. intros r. apply smooth_seq; [apply C; go|].
    intros x. go.
Qed.
Lemma unbuffered_clear c : L = LMutex -> clear (secured (unbuffered c)).
Proof.
  intros HL. unfold secured. apply clear_lk; [unfold is_L; now rewrite HL|].
  destruct c; cbn [unbuffered]; unfold rlift; (apply smooth_seq; [auto with race|intros; apply smooth_ret]).
Qed.
(** Writers, under their own lock. *)
Lemma writer_clear c : L = LWrite -> clear (bare BWriter c).
Proof.
  intros HL. assert (W : forall A (p : prog A), smooth p -> clear (with_lk LWrite p)) by (intros; apply clear_lk; auto; unfold is_L; now rewrite HL).
  assert (F : clear (r_flush BWriter)) by (apply W; go).
  destruct c; cbn [bare]; unfold rlift; (apply clear_seq; [|intros; apply clear_ret]).
  - apply clear_ret.
  - apply W. apply s_writer_write.
  - unfold r_seek. destruct (negb (valid_whence wh)); [apply clear_ret|]. apply W. go.
  - cbn [r_tell]. unfold r_writer_tell, r_mixin_tell. apply clear_bind.
    + apply clear_bind; [apply clear_raw, asks_tell|]. intros n. destruct (n <? 0); apply clear_ret.
    + intros n. apply clear_bind; [apply clear_attr|]. intros; apply clear_ret.
  - apply W. go.
  - exact F.
  - unfold r_size. apply clear_bind; [exact F|]. intros _. apply clear_raw, asks_size.
  - unfold r_close. apply clear_bind; [apply W; go|]. intros cl. destruct cl; [apply clear_ret|]. apply clear_seq; [exact F|]. intros r.
    apply clear_seq; [apply W; go|]. intros x. apply clear_ret.
Qed.

(** Streams for reading and writing, under the lock for writing, when a step may move the position of another file. *)
Definition looks {A} (m : rawio -> M A) : Prop := forall g, within (fd_of g) (m g) /\ C_Confined.sb (m g).
Lemma clear_look {A} (m : rawio -> M A) : (forall w w', keeps u w w' -> SP w w') -> looks m -> clear (raw_call m).
Proof.
  intros HK T b y b' G E. injection E as <- <-. split; [exact G|]. split; [apply SP_refl|]. split; [reflexivity|]. split; [auto|].
  cbn [pseq okp]. generalize (b_raw b). clear b G. intros R b y b' G E.
  destruct (m R (b_w b)) as [r w] eqn:Em. injection E as <- <-. cbn [set_world b_raw b_w].
  destruct (T R) as [T1 T2]. apply T1 in Em as W. apply T2 in Em as S. clear T T1 T2.
  assert (X : pending w u = pending (b_w b) u) by (rewrite !pending_ED, (rf_reg _ _ _ W), (rf_pid _ _ _ W); reflexivity).
  assert (K : forall d o, w_fds (b_w b) d = Some o -> exists o', w_fds w d = Some o' /\ o_uid o' = o_uid o).
  { intros d o Ed. destruct (Z.eq_dec d (fd_of R)) as [->|N]; [|rewrite (rf_fds _ _ _ W d N); eauto].
    pose proof (rf_fd _ _ _ W) as Q. rewrite Ed in Q. unfold same_ofd in Q. destruct (w_fds w (fd_of R)) as [o'|]; [|contradiction].
    exists o'. split; [reflexivity|]. destruct Q as (Q & _). congruence. }
  assert (O : forall d, ours (b_w b) d -> ours w d) by (intros d (o & O1 & O2); destruct (K d o O1) as (o' & K1 & K2); exists o'; split; congruence).
  assert (Y : live (b_w b) -> live w) by (intros [Y1 Y2]; split; [now apply O|now rewrite X]).
  split. { destruct G as (G1 & G2 & G3). split; [exact G1|]. split; [|intros Z; apply Y, G3, Z]. intros d. cbn [b_w set_world]. rewrite X. intros Hd. apply O, G2, Hd. }
  split; [|split; [reflexivity|]; split; [exact Y|reflexivity]].
  apply HK. split; [intros d o Ed _; exact (K d o Ed)|]. intros v i _ Ei Hi. exact (S v i Ei Hi).
Qed.
Lemma clear_other {A} l (p : prog A) : is_L l = false -> clear p -> clear (with_lk l p).
Proof.
  intros N H. red. cbn [with_lk okp]. rewrite N. apply okp_seq. eapply okp_post; [|apply H]. intros a st ->. cbn [okp]. split; [exact N|reflexivity].
Qed.
Lemma looks_seek off wh : looks (fun g => raw_seek g off wh).
Proof. intros g. split; [apply raw_seek_within|]. apply C_Confined.sb_bind; [apply C_Confined.sb_closed|intros _; apply C_Confined.sb_lseek]. Qed.
Lemma looks_read n : looks (fun g => raw_read g n).
Proof. intros g. split; [apply raw_read_within|apply C_Confined.sb_raw_read]. Qed.
Lemma looks_readall : looks raw_readall.
Proof. intros g. split; [apply raw_readall_within|apply C_Confined.sb_readall]. Qed.
Ltac goc HK := repeat first [match goal with |- forall _, _ => intro end | solve [apply clear_ret] | solve [apply clear_attr] | assumption
  | solve [apply (clear_look _ HK); auto using looks_seek, looks_read, looks_readall] | solve [apply clear_raw; auto using asks_tell, asks_size]
  | apply clear_bind | apply clear_seq | solve [pure]
  | match goal with |- clear (if ?c then _ else _) => destruct c | |- clear (match ?c with _ => _ end) => destruct c end].
Lemma c_fill w n : (forall w w', keeps u w w' -> SP w w') -> forall k out, clear (r_fill_loop k w n out).
Proof. intros HK. induction k as [|k IH]; intros out; cbn [r_fill_loop]; goc HK. apply IH. Qed.
Lemma random_clear c : L = LWrite -> (forall w w', keeps u w w' -> SP w w') -> clear (bare BRandom c).
Proof.
  intros HL HK. assert (W : forall A (p : prog A), smooth p -> clear (with_lk LWrite p)) by (intros; apply clear_lk; auto; unfold is_L; now rewrite HL).
  assert (RL : forall A (p : prog A), clear p -> clear (with_lk LRead p)) by (intros; apply clear_other; auto; unfold is_L; now rewrite HL).
  assert (F : clear (r_flush BRandom)) by (apply W; go).
  assert (U : clear r_undo) by (unfold r_undo; goc HK).
  assert (T : clear (r_tell BRandom)) by (cbn [r_tell]; unfold r_writer_tell, r_reader_tell, r_mixin_tell; goc HK).
  destruct c; cbn [bare]; unfold rlift; (apply clear_seq; [|intros; apply clear_ret]).
  - cbn [r_read]. apply clear_bind; [exact F|]. intros _. unfold r_reader_read. match goal with |- clear (if ?x then _ else _) => destruct x end; [apply clear_ret|].
    apply RL. unfold r_read_unlocked. goc HK; apply c_fill; exact HK.
  - cbn [r_write]. apply clear_bind; [apply clear_attr|]. intros some. apply clear_bind.
    + destruct some; [|apply clear_ret]. apply RL. goc HK.
    + intros _. apply W. apply s_writer_write.
  - unfold r_seek. destruct (negb (valid_whence wh)); [apply clear_ret|]. apply clear_bind; [exact F|]. intros _. apply clear_bind; [apply clear_attr|]. intros some.
    apply clear_bind; [destruct some; [now apply RL|apply clear_ret]|]. intros _. apply clear_bind; [goc HK|]. intros n.
    apply clear_bind; [apply RL; goc HK|]. intros _. goc HK.
  - exact T.
  - cbn [r_truncate]. apply clear_bind; [destruct n; [apply clear_ret|exact T]|]. intros p. apply W. go.
  - exact F.
  - unfold r_size. apply clear_bind; [exact F|]. intros _. apply clear_raw, asks_size.
  - unfold r_close. apply clear_bind; [apply W; go|]. intros cl. destruct cl; [apply clear_ret|]. apply clear_seq; [exact F|]. intros r.
    apply clear_seq; [apply W; go|]. intros x. apply clear_ret.
Qed.

(** * All threads *)
Variable start : rcall -> prog rout.
Hypothesis Hstart : forall c, clear (start c).
Definition owner : Type := option (nat * rawio * bool).
Definition place_of (own : owner) (t : nat) : place :=
  match own with Some (h, R, al) => if Nat.eqb t h then In_ R al else Out | None => Out end.
Definition thr_ok (own : owner) (t : nat) (y : thread rcall rout) : Prop :=
  match t_now y with None => place_of own t = Out | Some (_, p) => okp outside p (place_of own t) end.
Record rinv (q : pool rcall rout) (own : owner) : Prop := mkRinv {
  ri_good : good (q_st q);
  ri_lock : taken_by_someone (q_locks q) L = match own with Some _ => true | None => false end;
  ri_own : match own with Some (_, R, al) => b_raw (q_st q) = R /\ (al = true -> live (b_w (q_st q))) | None => True end;
  ri_thr : forall t y, nth_error (q_thr q) t = Some y -> thr_ok own t y }.

Lemma settle_inv q t y0 c p todo ls b own : nth_error (q_thr q) t = Some y0 -> good b ->
  taken_by_someone ls L = match own with Some _ => true | None => false end ->
  match own with Some (_, R, al) => b_raw b = R /\ (al = true -> live (b_w b)) | None => True end ->
  (forall t' y, t' <> t -> nth_error (q_thr q) t' = Some y -> thr_ok own t' y) -> okp outside p (place_of own t) ->
  rinv (settle t c p todo ls b q) own /\ q_st (settle t c p todo ls b q) = b.
Proof.
  intros Ht G El Eo Ho Hp.
  assert (Hthr : forall now, thr_ok own t (mkThread now todo) -> forall t' y, nth_error (nth_update (q_thr q) t (mkThread now todo)) t' = Some y -> thr_ok own t' y).
  { intros now Hn t' y E. destruct (Nat.eq_dec t' t) as [->|Ne].
    - rewrite (nth_update_at _ _ _ _ Ht) in E. injection E as <-. exact Hn.
    - rewrite nth_update_off in E by auto. now apply Ho. }
  destruct p; cbn [settle]; (split; [|reflexivity]; constructor; cbn [q_st q_locks q_thr]; auto; apply Hthr; exact Hp).
Qed.
Lemma taken_other ls l v : is_L l = false -> taken_by_someone (set_lock ls l v) L = taken_by_someone ls L.
Proof. unfold is_L. destruct l, L; cbn; congruence. Qed.
Lemma taken_L ls v : taken_by_someone (set_lock ls L v) L = v.
Proof. destruct L; reflexivity. Qed.

Lemma step_inv t q q' own : rinv q own -> pstep start t q = Some q' -> exists own', rinv q' own' /\ SP (b_w (q_st q)) (b_w (q_st q')).
Proof.
  intros [I1 I2 I3 I4]. unfold pstep. destruct (nth_error (q_thr q) t) as [[now todo]|] eqn:Et; [|discriminate].
  pose proof (I4 t _ Et) as Hp. unfold thr_ok in Hp. cbn [t_now] in Hp.
  assert (Others : forall R al R1 al1, own = Some (t, R, al) -> forall t' y, t' <> t -> nth_error (q_thr q) t' = Some y -> thr_ok (Some (t, R1, al1)) t' y /\ thr_ok None t' y).
  { intros R al R1 al1 -> t' y Ne E. pose proof (I4 t' y E) as X. unfold thr_ok, place_of in *. apply Nat.eqb_neq in Ne. rewrite Ne in *. auto. }
  destruct now as [[c p]|].
  2:{ destruct todo as [|c todo]; [discriminate|]. intros [= <-]. exists own.
      destruct (settle_inv q t _ c (start c) todo (q_locks q) (q_st q) own Et I1 I2 I3) as [A B].
      - intros t' y _ E. now apply I4.
      - rewrite Hp. apply Hstart.
      - split; [exact A|]. rewrite B. apply SP_refl. }
  destruct p as [r|X m k|l p|l p]; [discriminate|..].
  - destruct (m (q_st q)) as [y b'] eqn:Em. intros [= <-]. destruct (place_of own t) as [|R al] eqn:Ep; cbn [okp] in Hp.
    + destruct (Hp _ _ _ I1 Em) as (G & S & E1 & E2 & Hk). exists own.
      destruct (settle_inv q t _ c (k y) todo (q_locks q) b' own Et G I2) as [A B].
      * destruct own as [[[h R] al]|]; [|exact Logic.I]. destruct I3 as [I3 I3']. split; [congruence|auto].
      * intros t' y' _ E. now apply I4.
      * now rewrite Ep.
      * split; [exact A|]. now rewrite B.
    + unfold place_of in Ep. destruct own as [[[h R0] al0]|]; [|discriminate]. destruct (Nat.eqb t h) eqn:Eh; [|discriminate].
      injection Ep as -> ->. apply Nat.eqb_eq in Eh. subst h. destruct I3 as [I3 I3'].
      destruct (Hp _ _ _ I1 I3 I3' Em) as (G & S & al' & E2 & Hk). exists (Some (t, b_raw b', al')).
      destruct (settle_inv q t _ c (k y) todo (q_locks q) b' (Some (t, b_raw b', al')) Et G I2) as [A B].
      * auto.
      * intros t' y' Ne E. eapply (Others R al); eauto.
      * unfold place_of. now rewrite Nat.eqb_refl.
      * split; [exact A|]. now rewrite B.
  - destruct (taken_by_someone (q_locks q) l) eqn:El; [discriminate|]. intros [= <-].
    destruct (place_of own t) as [|R al] eqn:Ep; cbn [okp] in Hp.
    + destruct (is_L l) eqn:EL.
      * apply is_L_true in EL. subst l. rewrite El in I2. destruct own as [[[h R] al]|]; [discriminate|].
        exists (Some (t, b_raw (q_st q), false)).
        destruct (settle_inv q t _ c p todo (set_lock (q_locks q) L true) (q_st q) (Some (t, b_raw (q_st q), false)) Et I1 (taken_L _ _)) as [A B].
        -- split; [reflexivity|discriminate].
        -- intros t' y Ne E. pose proof (I4 t' y E) as X. unfold thr_ok, place_of in *. apply Nat.eqb_neq in Ne. now rewrite Ne.
        -- unfold place_of. rewrite Nat.eqb_refl. apply Hp.
        -- split; [exact A|]. rewrite B. apply SP_refl.
      * exists own. destruct (settle_inv q t _ c p todo (set_lock (q_locks q) l true) (q_st q) own Et I1) as [A B]; auto.
        -- now rewrite taken_other.
        -- now rewrite Ep.
        -- split; [exact A|]. rewrite B. apply SP_refl.
    + destruct Hp as [EL Hp]. exists own. destruct (settle_inv q t _ c p todo (set_lock (q_locks q) l true) (q_st q) own Et I1) as [A B]; auto.
      * now rewrite taken_other.
      * now rewrite Ep.
      * split; [exact A|]. rewrite B. apply SP_refl.
  - intros [= <-]. destruct (place_of own t) as [|R al] eqn:Ep; cbn [okp] in Hp.
    + destruct Hp as [EL Hp]. exists own. destruct (settle_inv q t _ c p todo (set_lock (q_locks q) l false) (q_st q) own Et I1) as [A B]; auto.
      * now rewrite taken_other.
      * now rewrite Ep.
      * split; [exact A|]. rewrite B. apply SP_refl.
    + destruct (is_L l) eqn:EL.
      * apply is_L_true in EL. subst l. exists None.
        unfold place_of in Ep. destruct own as [[[h R0] al0]|]; [|discriminate]. destruct (Nat.eqb t h) eqn:Eh; [|discriminate].
        apply Nat.eqb_eq in Eh. subst h.
        destruct (settle_inv q t _ c p todo (set_lock (q_locks q) L false) (q_st q) None Et I1 (taken_L _ _) Logic.I) as [A B].
        -- intros t' y Ne E. eapply (Others R0 al0 R0 al0); eauto.
        -- exact Hp.
        -- split; [exact A|]. rewrite B. apply SP_refl.
      * exists own. destruct (settle_inv q t _ c p todo (set_lock (q_locks q) l false) (q_st q) own Et I1) as [A B]; auto.
        -- now rewrite taken_other.
        -- now rewrite Ep.
        -- split; [exact A|]. rewrite B. apply SP_refl.
Qed.
Lemma else_live w w' : elsewhere u w w' -> live w -> live w'.
Proof. intros [E1 E2] [(o & L1 & L2) N]. split; [exact (E1 fd o L1 L2)|]. intros X. apply N, E2, X. Qed.
Lemma else_inv q w own : rinv q own -> elsewhere u (b_w (q_st q)) w -> rinv (mkPool (q_locks q) (set_world (q_st q) w) (q_thr q) (q_log q)) own.
Proof.
  intros [I1 I2 I3 I4] E. constructor; cbn [q_locks q_st q_thr]; auto.
  - destruct I1 as (G1 & G2 & G3). split; [exact G1|]. split; [|intros Y; exact (else_live _ _ E (G3 Y))].
    intros d Hd. cbn [b_w set_world] in Hd. destruct E as [E1 E2]. destruct (G2 d (E2 d Hd)) as (o & X1 & X2). exact (E1 d o X1 X2).
  - destruct own as [[[h R] al]|]; auto. destruct I3 as [I3 I3']. split; [exact I3|]. intros Y. exact (else_live _ _ E (I3' Y)).
Qed.
Lemma racing_inv q q' own : racing start u q q' -> rinv q own -> exists own', rinv q' own'.
Proof.
  intros H. induction H as [q|q q1 q2 t H IH E|q q1 w H IH E]; intros I; eauto.
  - destruct (IH I) as (own1 & I1). destruct (step_inv _ _ _ _ I1 E) as (own2 & I2 & _). eauto.
  - destruct (IH I) as (own1 & I1). exists own1. now apply else_inv.
Qed.
Lemma new_rinv size w scripts : live w -> pends w -> rinv (new_pool (fresh f size w) scripts) None.
Proof.
  intros HL HP. constructor; cbn.
  - split; [now left|]. split; auto.
  - destruct L; reflexivity.
  - exact Logic.I.
  - intros t y E. apply nth_error_In, in_map_iff in E. destruct E as (s0 & <- & _). reflexivity.
Qed.
End Race.

(** Whatever the threads do with a writer that has no wrapper (write, seek, tell, truncate, flush, size, close, in any order and at the same
    time), and whatever the rest of the process does in between: no step touches another file. *)
Theorem C104_writer : forall f w u size scripts q t q', opened_on f w u ->
  racing (bare BWriter) u (new_pool (fresh f size w) scripts) q -> pstep (bare BWriter) t q = Some q' ->
  spares u (b_w (q_st q)) (b_w (q_st q')).
Proof.
  intros f w u size scripts q t q' [Ho Hu (fd & Hf & Hl & Hn) Hp] H E.
  pose proof (fun c => writer_clear f fd u Ho Hf Hu LWrite (spares u) (fun _ _ S => S) c eq_refl) as C.
  destruct (racing_inv f fd u LWrite (spares u) (fun _ _ S => S) _ C _ _ None H (new_rinv f fd u LWrite (spares u) size w scripts (conj Hl Hn) Hp)) as (own & I).
  destruct (step_inv f fd u LWrite (spares u) (fun _ _ S => S) _ C t q q' own I E) as (own' & _ & S). exact S.
Qed.
(** The same for every kind of stream in the thread-safe wrapper. *)
Theorem C104_wrapped : forall k f w u size scripts q t q', opened_on f w u ->
  racing (wrapped k) u (new_pool (fresh f size w) scripts) q -> pstep (wrapped k) t q = Some q' ->
  spares u (b_w (q_st q)) (b_w (q_st q')).
Proof.
  intros k f w u size scripts q t q' [Ho Hu (fd & Hf & Hl & Hn) Hp] H E.
  pose proof (fun c => wrapped_clear f fd u Ho Hf Hu LMutex (spares u) (fun _ _ S => S) k c eq_refl) as C.
  destruct (racing_inv f fd u LMutex (spares u) (fun _ _ S => S) _ C _ _ None H (new_rinv f fd u LMutex (spares u) size w scripts (conj Hl Hn) Hp)) as (own & I).
  destruct (step_inv f fd u LMutex (spares u) (fun _ _ S => S) _ C t q q' own I E) as (own' & _ & S). exact S.
Qed.

(** Raw streams in the wrapper. *)
Theorem C104_raw_wrapped : forall f w u size scripts q t q', opened_on f w u ->
  racing (fun c => secured (unbuffered c)) u (new_pool (fresh f size w) scripts) q -> pstep (fun c => secured (unbuffered c)) t q = Some q' ->
  spares u (b_w (q_st q)) (b_w (q_st q')).
Proof.
  intros f w u size scripts q t q' [Ho Hu (fd & Hf & Hl & Hn) Hp] H E.
  pose proof (fun c => unbuffered_clear f fd u Ho Hf Hu LMutex (spares u) (fun _ _ S => S) c eq_refl) as C.
  destruct (racing_inv f fd u LMutex (spares u) (fun _ _ S => S) _ C _ _ None H (new_rinv f fd u LMutex (spares u) size w scripts (conj Hl Hn) Hp)) as (own & I).
  destruct (step_inv f fd u LMutex (spares u) (fun _ _ S => S) _ C t q q' own I E) as (own' & _ & S). exact S.
Qed.
(** A stream for reading and writing without wrapper: at worst, the position of another file moves. *)
Theorem C104_random_partial : forall f w u size scripts q t q', opened_on f w u ->
  racing (bare BRandom) u (new_pool (fresh f size w) scripts) q -> pstep (bare BRandom) t q = Some q' ->
  keeps u (b_w (q_st q)) (b_w (q_st q')).
Proof.
  intros f w u size scripts q t q' [Ho Hu (fd & Hf & Hl & Hn) Hp] H E.
  assert (K : forall w w', spares u w w' -> keeps u w w').
  { intros w1 w2 [S1 S2]. split; [intros d o E1 E2; exists o; split; auto|]. intros v i Nv Ei _. exists i. rewrite (S2 v Nv). auto. }
  pose proof (fun c => random_clear f fd u Ho Hf Hu LWrite (keeps u) K c eq_refl (fun _ _ S => S)) as C.
  destruct (racing_inv f fd u LWrite (keeps u) K _ C _ _ None H (new_rinv f fd u LWrite (keeps u) size w scripts (conj Hl Hn) Hp)) as (own & I).
  destruct (step_inv f fd u LWrite (keeps u) K _ C t q q' own I E) as (own' & _ & S). exact S.
Qed.

(** * Schedules that can be computed *)
Inductive racer : Type := Thr (t : nat) | Opens.
(** The rest of the process opens the file (1, 30), whose content is 7, 8, 9, as descriptor 3. *)
Definition opens_other (w : world) : world :=
  upd_fd (upd_ino w (1, 30) (mkIno KReg [7; 8; 9] false)) 3 (Some (mkOfd (1, 30) 0 true true false false false)).
Fixpoint race (start : rcall -> prog rout) (hs : list racer) (q : pool rcall rout) : option (pool rcall rout) :=
  match hs with
  | [] => Some q
  | Thr t :: r => match pstep start t q with Some q1 => race start r q1 | None => None end
  | Opens :: r =>
      match w_fds (b_w (q_st q)) 3 with
      | None => race start r (mkPool (q_locks q) (set_world (q_st q) (opens_other (b_w (q_st q)))) (q_thr q) (q_log q))
      | Some _ => None
      end
  end.
Lemma opens_elsewhere u w : w_fds w 3 = None -> elsewhere u w (opens_other w).
Proof.
  intros N. split; [|intros d; auto]. intros d o E U. exists o. split; [|exact U]. cbn. unfold upd.
  destruct (3 =? d) eqn:X; [apply Z.eqb_eq in X; subst d; congruence|exact E].
Qed.
Lemma race_racing start u q0 : forall hs q q', racing start u q0 q -> race start hs q = Some q' -> racing start u q0 q'.
Proof.
  induction hs as [|h hs IH]; intros q q' H E; cbn [race] in E; [congruence|]. destruct h as [t|].
  - destruct (pstep start t q) as [q1|] eqn:E1; [|discriminate]. eapply IH; [|exact E]. eapply RC_step; eauto.
  - destruct (w_fds (b_w (q_st q)) 3) eqn:E1; [discriminate|]. eapply IH; [|exact E]. apply RC_else; [exact H|]. now apply opens_elsewhere.
Qed.
Definition only (t n : nat) : list racer := repeat (Thr t) n.
Definition where_is (w : world) (d : Z) : option (uid * Z) := match w_fds w d with Some o => Some (o_uid o, o_pos o) | None => None end.
(** What the threads got, and whether the stream is closed. *)
Definition got (q : pool rcall rout) : list (nat * rout) := map (fun x => (fst (fst x), snd x)) (q_log q).
Definition dm : rawio * world := demo_open "f" true true false (demo [1; 2; 3; 4] [] [] []).
Definition pl (s : list (list rcall)) : pool rcall rout := new_pool (fresh (fst dm) 8 (snd dm)) s.
Example C104_setting_inhabited : opened_on (fst dm) (snd dm) (1, 10).
Proof.
  split; [reflexivity|reflexivity| |].
  - exists 3. split; [reflexivity|]. split; [eexists; split; reflexivity|]. vm_compute. tauto.
  - intros d H. vm_compute in H. contradiction.
Qed.
(** Thread [t] makes a step that takes the descriptor 3, at the position [p] of the file (1, 30), to [r]. *)
Definition touches (start : rcall -> prog rout) (t : nat) (p : Z) (r : option (uid * Z)) (q : pool rcall rout) : Prop :=
  match pstep start t q with
  | Some q' => where_is (b_w (q_st q)) 3 = Some (1, 30, p) /\ where_is (b_w (q_st q')) 3 = r
  | None => False
  end.
Lemma touches_foul start t p r q : touches start t p r q -> r <> Some (1, 30, p) ->
  exists q', pstep start t q = Some q' /\ ~ spares (1, 10) (b_w (q_st q)) (b_w (q_st q')).
Proof.
  unfold touches. destruct (pstep start t q) as [q'|]; [|contradiction]. intros [H1 H2] N. exists q'. split; [reflexivity|]. intros [S _].
  unfold where_is in *. destruct (w_fds (b_w (q_st q)) 3) as [o|] eqn:E; [|discriminate]. injection H1 as U P.
  rewrite (S 3 o E ltac:(rewrite U; discriminate)) in H2. apply N. rewrite <- H2, U, P. reflexivity.
Qed.
Lemma by_race start u hs q0 (P : pool rcall rout -> Prop) :
  match race start hs q0 with Some q => P q | None => False end -> exists q, racing start u q0 q /\ P q.
Proof. destruct (race start hs q0) as [q|] eqn:E; [|contradiction]. intros H. exists q. split; [|exact H]. eapply race_racing; [apply RC_now|exact E]. Qed.

(** A reader without wrapper: a thread is about to read when another one closes the stream; the process opens another file, which gets the
    same descriptor; the thread reads from it, and returns its bytes. *)
Theorem C104_reader_refuted :
  (exists q q', racing (bare BReader) (1, 10) (pl [[RcRead (Some 2)]; [RcClose]]) q /\ pstep (bare BReader) 0 q = Some q'
     /\ ~ spares (1, 10) (b_w (q_st q)) (b_w (q_st q')))
  /\ exists q, racing (bare BReader) (1, 10) (pl [[RcRead (Some 2)]; [RcClose]]) q /\ got q = [(1%nat, OUnit); (0%nat, OBytes [7; 8])].
Proof.
  split.
  - destruct (by_race (bare BReader) (1, 10) (only 0 6 ++ only 1 8 ++ [Opens]) (pl [[RcRead (Some 2)]; [RcClose]]) (touches (bare BReader) 0 0 (Some (1, 30, 3))))
      as (q & H & T); [vm_compute; split; reflexivity|].
    destruct (touches_foul _ _ _ _ _ T ltac:(discriminate)) as (q' & E & N). eauto.
  - apply (by_race (bare BReader) (1, 10) (only 0 6 ++ only 1 8 ++ [Opens] ++ only 0 3)). vm_compute. reflexivity.
Qed.
(** Two threads close it: the second one closes the descriptor of another file. *)
Theorem C104_close_twice_refuted :
  exists q q', racing (bare BReader) (1, 10) (pl [[RcClose]; [RcClose]]) q /\ pstep (bare BReader) 0 q = Some q'
    /\ where_is (b_w (q_st q)) 3 = Some (1, 30, 0) /\ where_is (b_w (q_st q')) 3 = None.
Proof.
  destruct (by_race (bare BReader) (1, 10) (only 0 6 ++ only 1 8 ++ [Opens] ++ only 0 1) (pl [[RcClose]; [RcClose]]) (touches (bare BReader) 0 0 None))
    as (q & H & T); [vm_compute; split; reflexivity|].
  unfold touches in T. destruct (pstep (bare BReader) 0 q) as [q'|] eqn:E; [|contradiction]. exists q, q'. tauto.
Qed.
(** A stream for reading and writing without wrapper: seek() moves the position of another file, read() returns its bytes. *)
Theorem C104_random_refuted :
  (exists q q', racing (bare BRandom) (1, 10) (pl [[RcSeek 2 0]; [RcClose]]) q /\ pstep (bare BRandom) 0 q = Some q'
     /\ ~ spares (1, 10) (b_w (q_st q)) (b_w (q_st q')))
  /\ exists q, racing (bare BRandom) (1, 10) (pl [[RcRead (Some 2)]; [RcClose]]) q /\ got q = [(1%nat, OUnit); (0%nat, OBytes [7; 8])].
Proof.
  split.
  - destruct (by_race (bare BRandom) (1, 10) (only 0 8 ++ only 1 14 ++ [Opens]) (pl [[RcSeek 2 0]; [RcClose]]) (touches (bare BRandom) 0 0 (Some (1, 30, 2))))
      as (q & H & T); [vm_compute; split; reflexivity|].
    destruct (touches_foul _ _ _ _ _ T ltac:(discriminate)) as (q' & E & N). eauto.
  - apply (by_race (bare BRandom) (1, 10) (only 0 11 ++ only 1 14 ++ [Opens] ++ only 0 3)). vm_compute. reflexivity.
Qed.
(** A raw stream without wrapper: write() writes into another file, truncate() cuts it, close() closes its descriptor. *)
Theorem C104_raw_refuted :
  (exists q, racing unbuffered (1, 10) (pl [[RcWrite [5; 6]]; [RcClose]]) q
     /\ got q = [(1%nat, OUnit); (0%nat, OInt 2)] /\ content (b_w (q_st q)) (1, 30) = [5; 6; 9] /\ content (b_w (q_st q)) (1, 10) = [1; 2; 3; 4])
  /\ (exists q, racing unbuffered (1, 10) (pl [[RcTruncate (Some 0)]; [RcClose]]) q
     /\ got q = [(1%nat, OUnit); (0%nat, OInt 0)] /\ content (b_w (q_st q)) (1, 30) = [] /\ content (b_w (q_st q)) (1, 10) = [1; 2; 3; 4])
  /\ exists q q', racing unbuffered (1, 10) (pl [[RcClose]; [RcClose]]) q /\ pstep unbuffered 0 q = Some q'
    /\ where_is (b_w (q_st q)) 3 = Some (1, 30, 0) /\ where_is (b_w (q_st q')) 3 = None.
Proof.
  split; [|split].
  - apply (by_race unbuffered (1, 10) (only 0 2 ++ only 1 4 ++ [Opens] ++ only 0 1)). vm_compute. repeat split; reflexivity.
  - apply (by_race unbuffered (1, 10) (only 0 2 ++ only 1 4 ++ [Opens] ++ only 0 1)). vm_compute. repeat split; reflexivity.
  - destruct (by_race unbuffered (1, 10) (only 0 2 ++ only 1 4 ++ [Opens] ++ only 0 1) (pl [[RcClose]; [RcClose]]) (touches unbuffered 0 0 None))
      as (q & H & T); [vm_compute; split; reflexivity|].
    unfold touches in T. destruct (pstep unbuffered 0 q) as [q'|] eqn:E; [|contradiction]. exists q, q'. tauto.
Qed.
(** The same races on a writer, and in the wrapper: close() waits for the write(), and a write() after it fails; the other file keeps its
    position and its bytes. *)
Example C104_writer_example :
  match race (bare BWriter) (only 0 10 ++ only 1 1) (pl [[RcWrite [5; 6]; RcFlush; RcWrite [9]]; [RcClose]]) with
  | Some q => pstep (bare BWriter) 1 q = None /\
      match race (bare BWriter) (only 0 7 ++ only 1 13 ++ [Opens] ++ only 0 4) q with
      | Some q => got q = [(0%nat, OInt 2); (0%nat, OUnit); (1%nat, OUnit); (0%nat, OErr EValue)]
          /\ content (b_w (q_st q)) (1, 10) = [5; 6; 3; 4] /\ content (b_w (q_st q)) (1, 30) = [7; 8; 9] /\ where_is (b_w (q_st q)) 3 = Some (1, 30, 0)
      | None => False
      end
  | None => False
  end.
Proof. vm_compute. repeat split; reflexivity. Qed.
Example C104_wrapped_example :
  match race (wrapped BReader) (only 0 8 ++ only 1 1) (pl [[RcRead (Some 2); RcRead (Some 3)]; [RcClose]]) with
  | Some q => pstep (wrapped BReader) 1 q = None /\
      match race (wrapped BReader) (only 0 4 ++ only 1 9 ++ [Opens] ++ only 0 9) q with
      | Some q => got q = [(0%nat, OBytes [1; 2]); (1%nat, OUnit); (0%nat, OErr EValue)] /\ where_is (b_w (q_st q)) 3 = Some (1, 30, 0)
      | None => False
      end
  | None => False
  end.
Proof. vm_compute. repeat split; reflexivity. Qed.
Print Assumptions C104_writer.
Print Assumptions C104_wrapped.
Print Assumptions C104_random_partial.
Print Assumptions C104_reader_refuted.
Print Assumptions C104_close_twice_refuted.
Print Assumptions C104_random_refuted.
Print Assumptions C104_raw_wrapped.
Print Assumptions C104_raw_refuted.
