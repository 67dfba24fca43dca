(** Closing a raw stream: what it never changes, and what it achieves. *)
From Coq Require Import ZArith List Bool Lia.
From Verif Require Import M_Base M_Modes M_Registry M_Kernel M_World M_Raw S_Locks S_LockFile
  P_Raw P_Registry P_Kernel P_Lock P_LockFile.
Import ListNotations.
Open Scope Z_scope.

(** * What closing never changes *)
Record kept (w w' : world) : Prop := mkKept {
  kp_names : w_names w' = w_names w;
  kp_inodes : w_inodes w' = w_inodes w;
  kp_newfd : w_newfd w' = w_newfd w;
  kp_newino : w_newino w' = w_newino w;
  kp_pid : w_pid w' = w_pid w;
  kp_env : w_env w' = w_env w;
  kp_clock : w_clock w' = w_clock w;
  kp_opts : w_opts w' = w_opts w;
  kp_blk : w_blk w' = w_blk w;
  kp_io : incl (w_io w') (w_io w);
  kp_fds : forall d, w_fds w' d = w_fds w d \/ w_fds w' d = None;
  kp_own : forall v sh b, process_holds w' v sh b -> process_holds w v sh b;
  kp_others : forall p v sh b, p <> w_pid w -> (kholds (w_kern w') p v sh b <-> kholds (w_kern w) p v sh b) }.

Lemma kept_refl w : kept w w.
Proof. constructor; auto using incl_refl; intros; tauto. Qed.
Lemma kept_trans a b c : kept a b -> kept b c -> kept a c.
Proof.
  intros [] []. constructor; try congruence.
  - eapply incl_tran; eauto.
  - intros d. destruct (kp_fds1 d) as [->| ->]; auto.
  - auto.
  - intros. rewrite kp_others1, kp_others0; try tauto. congruence.
Qed.
Lemma kept_set_reg w r : kept w (set_reg w r).
Proof. constructor; auto using incl_refl; intros; cbn; tauto. Qed.
Lemma kept_set_io w io : incl io (w_io w) -> kept w (set_io w io).
Proof. intros. constructor; auto using incl_refl; intros; cbn; tauto. Qed.

Definition pres (m : M unit) : Prop := forall w r w', m w = (r, w') -> kept w w'.

Lemma sys_close_kept fd w r w' : sys_close fd w = (r, w') -> kept w w'.
Proof.
  unfold sys_close. destruct (w_fds w fd) as [o|]; intros [= <- <-]; [|apply kept_refl].
  constructor; auto using incl_refl; cbn.
  - intros d. unfold upd. destruct (fd =? d); auto.
  - intros v sh b H. apply (kclose_holds (w_kern w)) in H. apply process_holds_kholds. tauto.
  - intros p v sh b Hp. rewrite kclose_holds. tauto.
Qed.
Lemma close_all_kept : forall fds, pres (close_all fds).
Proof.
  induction fds as [|fd fds IH]; intros w r w'; cbn [close_all].
  - intros [= <- <-]. apply kept_refl.
  - unfold bind. destruct (sys_close fd w) as [[] w1] eqn:E.
    + intros H. eapply kept_trans; [eapply sys_close_kept; eauto|eapply IH; eauto].
    + intros [= <- <-]. eapply sys_close_kept; eauto.
Qed.
Lemma purge_kept u w r w' : purge_pending u w = (r, w') -> kept w w'.
Proof.
  unfold purge_pending. destruct (unique_id_has_locks _ _ _) as [has r1].
  destruct has; [intros [= <- <-]; apply kept_set_reg|].
  destruct (remove_unique_id_data _ _ _) as [fds r2].
  destruct (close_all fds (set_reg w r2)) as [[] w1] eqn:E; intros [= <- <-];
    (eapply kept_trans; [|eapply close_all_kept; eauto]; apply kept_set_reg).
Qed.
Lemma sys_unlock_kept fd off n : pres (sys_unlock fd off n).
Proof.
  intros w r w'. unfold sys_unlock, bind, get_fd. destruct (w_fds w fd) as [o|]; [|intros [= <- <-]; apply kept_refl].
  destruct (w_inodes w (o_uid o)) as [i|]; [|intros [= <- <-]; apply kept_refl].
  rewrite next_io_eq.
  assert (kept w (set_io w (tl (w_io w)))) as K by (apply kept_set_io, incl_tl_refl).
  assert (kept w (set_kern (set_io w (tl (w_io w))) (kunlock (w_kern w) (w_pid w) (o_uid o) off (kend off n)))) as K2.
  { eapply kept_trans; [exact K|]. constructor; auto using incl_refl.
    - intros v sh b H. apply process_holds_kholds in H. apply (kunlock_holds (w_kern w)) in H.
      apply process_holds_kholds. tauto.
    - intros p v sh b Hp. cbn. rewrite kunlock_holds. cbn in Hp. tauto. }
  destruct (hd IoFull (w_io w)); try (intros [= <- <-]; exact K);
    (destruct (off <? 0); intros [= <- <-]; [exact K|exact K2]).
Qed.
Lemma inner_file_unlock_kept f n off : pres (inner_file_unlock f n off).
Proof.
  intros w r w'. unfold inner_file_unlock, finally, bind.
  destruct (sys_unlock (fd_of f) off (klen n) w) as [r1 w1] eqn:E1.
  destruct (purge_pending (uid_of f) w1) as [[] w2] eqn:E2; intros [= <- <-];
    (eapply kept_trans; [eapply sys_unlock_kept; eauto|eapply purge_kept; eauto]).
Qed.
Lemma unlock_each_kept f : forall l, pres (unlock_each f l).
Proof.
  induction l as [|lk l IH]; intros w r w'; cbn [unlock_each].
  - intros [= <- <-]. apply kept_refl.
  - unfold bind. destruct (inner_file_unlock _ _ _ w) as [[] w1] eqn:E.
    + intros H. eapply kept_trans; [eapply inner_file_unlock_kept; eauto|eapply IH; eauto].
    + intros [= <- <-]. eapply inner_file_unlock_kept; eauto.
Qed.
Lemma inner_close_kept f : pres (inner_close_streams f).
Proof.
  intros w r w'. unfold inner_close_streams.
  destruct (f_closefd f); [|intros [= <- <-]; apply kept_refl].
  destruct (f_uid f) as [u|]; [|intros [= <- <-]; apply kept_refl].
  destruct (f_fd f) as [fd|]; [|intros [= <- <-]; apply kept_refl].
  unfold bind. destruct (add_unique_id_data _ _ _ _) as [[] reg];
    [|intros [= <- <-]; apply kept_set_reg].
  destruct (purge_pending u (set_reg w reg)) as [[] w1] eqn:E.
  - destruct (try_deleting_unique_id_entry _ _ _) as [bb r2]. intros [= <- <-].
    eapply kept_trans; [apply kept_set_reg|]. eapply kept_trans; [eapply purge_kept; eauto|]. apply kept_set_reg.
  - intros [= <- <-]. eapply kept_trans; [apply kept_set_reg|]. eapply purge_kept; eauto.
Qed.
Lemma raw_close_kept f : pres (raw_close f).
Proof.
  intros w r w'. unfold raw_close. destruct (f_closed f); [intros [= <- <-]; apply kept_refl|].
  unfold bind.
  match goal with |- context [(match ?a with _ => _ end) w] => destruct a as [u|] end.
  2:{ cbn. apply inner_close_kept. }
  destruct (f_fd f) as [fd|]. 2:{ cbn. apply inner_close_kept. }
  destruct (remove_file_locks _ _ _ _) as [l reg].
  destruct (unlock_each f l (set_reg w reg)) as [[] w1] eqn:E.
  - intros H. eapply kept_trans; [apply kept_set_reg|]. eapply kept_trans; [eapply unlock_each_kept; eauto|].
    eapply inner_close_kept; eauto.
  - intros [= <- <-]. eapply kept_trans; [apply kept_set_reg|]. eapply unlock_each_kept; eauto.
Qed.

(** * What closing achieves *)

Lemma pending_set_reg w r u : r_pid r = w_pid w -> pending (set_reg w r) u = data_of r u.
Proof. intros H. unfold pending. rewrite registry_of_id by auto. reflexivity. Qed.
Lemma waiters_set_reg w r u : r_pid r = w_pid w -> waiters (set_reg w r) u = waiting_of r u.
Proof. intros H. unfold waiters. rewrite registry_of_id by auto. reflexivity. Qed.

Lemma close_all_ok : forall fds w, NoDup fds -> (forall d, In d fds -> w_fds w d <> None) ->
  exists w', close_all fds w = (Ok tt, w') /\ w_reg w' = w_reg w /\ w_io w' = w_io w
    /\ (forall d, In d fds -> w_fds w' d = None) /\ (forall d, ~ In d fds -> w_fds w' d = w_fds w d)
    /\ (forall d o, In d fds -> w_fds w d = Some o -> forall sh b, ~ process_holds w' (o_uid o) sh b).
Proof.
  induction fds as [|fd fds IH]; intros w Hn Ho.
  - exists w. cbn. repeat split; auto; try tauto.
  - inversion Hn as [|? ? Hni Hn']; subst. cbn [close_all]. unfold bind, sys_close.
    destruct (w_fds w fd) as [o|] eqn:Eo; [|exfalso; apply (Ho fd); [now left|auto]].
    set (w1 := set_kern _ _).
    assert (forall d, d <> fd -> w_fds w1 d = w_fds w d) as F.
    { intros d Hd. cbn. apply upd_other. apply Z.eqb_neq. congruence. }
    destruct (IH w1 Hn') as (w' & E & R & I & A & B & C).
    { intros d Hd. rewrite F by (intros ->; contradiction). apply Ho. now right. }
    exists w'. split; [exact E|]. split; [exact R|]. split; [exact I|]. split; [|split].
    + intros d [<-|Hd]; auto. rewrite B by auto. cbn. apply upd_same, Z.eqb_refl.
    + intros d Hd. rewrite B by (intros X; apply Hd; now right). apply F. intros ->. apply Hd. now left.
    + intros d o' Hd Eo' sh b Hh. destruct (Z.eq_dec d fd) as [->|Hne].
      * assert (o' = o) as -> by congruence.
        apply (kp_own _ _ (close_all_kept fds _ _ _ E)) in Hh. apply process_holds_kholds in Hh.
        apply (kclose_holds (w_kern w)) in Hh. cbn in Hh. tauto.
      * destruct Hd as [<-|Hd]; [congruence|]. apply (C d o' Hd) in Hh; auto. now rewrite F.
Qed.

(** The descriptors of the process concerning file [u]: pending ones are open, once each. *)
Definition pending_ok (w : world) (u : uid) : Prop :=
  NoDup (pending w u) /\ forall d, In d (pending w u) -> exists o, w_fds w d = Some o /\ o_uid o = u.

Definition reg_same_but (u : uid) (w w' : world) : Prop :=
  forall v, v <> u -> r_map (registry_of w') v = r_map (registry_of w) v.

Lemma purge_ok u w : pending_ok w u ->
  exists b w', purge_pending u w = (Ok b, w') /\ kept w w' /\ w_io w' = w_io w
    /\ (forall v, table w' v = table w v) /\ (forall v, waiters w' v = waiters w v)
    /\ reg_same_but u w w'
    /\ ((table w u <> [] /\ (forall d, w_fds w' d = w_fds w d) /\ pending w' u = pending w u)
        \/ (table w u = [] /\ pending w' u = []
            /\ (forall d, In d (pending w u) -> w_fds w' d = None)
            /\ (forall d, ~ In d (pending w u) -> w_fds w' d = w_fds w d)
            /\ (pending w u <> [] -> forall sh b, ~ process_holds w' u sh b))).
Proof.
  intros [Hn Ho]. destruct (purge_pending u w) as [r w'] eqn:Ep.
  pose proof (purge_kept _ _ _ _ Ep) as K. pose proof (purge_keeps _ _ _ _ Ep) as (T & P & _).
  unfold purge_pending, unique_id_has_locks, remove_unique_id_data in Ep.
  fold (registry_of w) in Ep. rewrite (check_forking_registry w) in Ep.
  destruct (r_map (registry_of w) u) as [e|] eqn:Ee.
  - destruct (is_nil (e_locks e)) eqn:En; cbn [negb] in Ep.
    + assert (table w u = []) as ET by (unfold table; rewrite Ee; now destruct (e_locks e)).
      set (reg := reg_set _ _ _) in Ep.
      assert (pending w u = e_data e) as EP by (unfold pending; now rewrite Ee).
      destruct (close_all_ok (e_data e) (set_reg w reg)) as (w1 & E & R & I & A & B & C).
      { now rewrite <- EP. }
      { intros d Hd. rewrite <- EP in Hd. destruct (Ho d Hd) as (o & X & _). cbn. congruence. }
      rewrite E in Ep. injection Ep as <- <-. exists true, w1.
      assert (registry_of w1 = reg) as RR.
      { unfold registry_of. rewrite R, P. cbn [w_reg set_reg]. apply (check_forking_id (set_reg w reg)).
        exact (registry_of_pid w). }
      split; [reflexivity|]. split; [exact K|]. split; [exact I|]. split; [exact T|]. split; [|split].
      * intros v. unfold waiters. rewrite RR. unfold reg. destruct (uid_dec u v) as [<-|Hv].
        { rewrite reg_set_eq, Ee. reflexivity. } { now rewrite reg_set_neq. }
      * intros v Hv. rewrite RR. unfold reg. apply reg_set_neq. congruence.
      * right. split; [exact ET|]. split; [unfold pending; rewrite RR; unfold reg; now rewrite reg_set_eq|].
        rewrite EP. split; [exact A|]. split; [exact B|].
        intros Hne sh b. destruct (e_data e) as [|d l] eqn:Ed; [congruence|].
        destruct (Ho d) as (o & X & <-). { rewrite EP. now left. }
        apply (C d o); auto. now left.
    + injection Ep as <- <-. exists false, (set_reg w (registry_of w)).
      assert (registry_of (set_reg w (registry_of w)) = registry_of w) as RR by exact (check_forking_registry w).
      split; [reflexivity|]. split; [exact K|]. split; [reflexivity|]. split; [exact T|]. split; [|split].
      * intros v. unfold waiters. now rewrite RR.
      * intros v _. now rewrite RR.
      * left. split; [unfold table; rewrite Ee; now destruct (e_locks e)|]. split; [auto|]. unfold pending. now rewrite RR.
  - cbn in Ep. injection Ep as <- <-. exists true, (set_reg w (registry_of w)).
    assert (registry_of (set_reg w (registry_of w)) = registry_of w) as RR by exact (check_forking_registry w).
    split; [reflexivity|]. split; [exact K|]. split; [reflexivity|]. split; [exact T|]. split; [|split].
    + intros v. unfold waiters. now rewrite RR.
    + intros v _. now rewrite RR.
    + right. unfold table, pending. rewrite RR, Ee. split; [auto|]. split; [auto|]. split; [intros d []|]. split; [auto|]. intros X. now contradiction X.
Qed.

(** A stream that owns an open descriptor, other than 0. *)
Record owner (f : rawio) (w : world) (u : uid) (fd : Z) : Prop := mkOwner {
  ow_uid : f_uid f = Some u;
  ow_fd : f_fd f = Some fd;
  ow_nz : fd <> 0;
  ow_open : exists o, w_fds w fd = Some o /\ o_uid o = u;
  ow_ino : w_inodes w u <> None;
  ow_pending : pending_ok w u;
  ow_fresh : ~ In fd (pending w u) }.

(** No system call fails any more. *)
Definition no_err (w : world) : Prop := forall e, ~ In (IoErr e) (w_io w).
Lemma no_err_kept w w' : kept w w' -> no_err w -> no_err w'.
Proof. intros K H e He. apply (H e). now apply (kp_io _ _ K). Qed.

Lemma inner_file_unlock_ok f w u fd n off : owner f w u fd -> no_err w -> 0 <= off ->
  exists w', inner_file_unlock f n off w = (Ok tt, w') /\ kept w w' /\ owner f w' u fd
    /\ (forall v, table w' v = table w v) /\ (forall v, waiters w' v = waiters w v) /\ reg_same_but u w w'
    /\ ((table w u <> [] /\ (forall d, w_fds w' d = w_fds w d) /\ pending w' u = pending w u)
        \/ (table w u = [] /\ pending w' u = []
            /\ (forall d, In d (pending w u) -> w_fds w' d = None)
            /\ (forall d, ~ In d (pending w u) -> w_fds w' d = w_fds w d)))
    /\ (forall sh b, covers off n b -> ~ process_holds w' u sh b).
Proof.
  intros [Eu Ef Hnz (o & Eo & Ho) Hi Hp Hf] Hio Hoff.
  assert (fd_of f = fd /\ uid_of f = u) as [F1 F2] by (unfold fd_of, uid_of; now rewrite Eu, Ef).
  unfold inner_file_unlock, finally. rewrite F1, F2.
  rewrite (sys_unlock_ok _ _ _ w o) by (auto; now rewrite Ho). rewrite Ho, kend_range.
  set (w1 := set_kern _ _).
  assert (kept w w1) as K1.
  { assert (sys_unlock fd off (klen n) w = (Ok tt, w1)) as X.
    { unfold w1. rewrite (sys_unlock_ok _ _ _ w o) by (auto; now rewrite Ho). now rewrite Ho, kend_range. }
    eapply sys_unlock_kept; eauto. }
  assert (pending_ok w1 u) as Hp1 by exact Hp.
  destruct (purge_ok u w1 Hp1) as (b & w2 & E & K2 & I2 & T2 & W2 & R2 & C2). unfold bind. rewrite E.
  exists w2. split; [reflexivity|]. split; [eapply kept_trans; eauto|].
  change (table w1 u) with (table w u) in C2. change (pending w1 u) with (pending w u) in C2.
  change (w_fds w1) with (w_fds w) in C2.
  assert (w_fds w2 fd = w_fds w fd) as Efd2.
  { destruct C2 as [(_ & C & _)|(_ & _ & _ & C & _)]; rewrite C; auto. }
  split; [|split; [exact T2|split; [exact W2|split; [exact R2|split]]]].
  - constructor; auto.
    + exists o. rewrite Efd2. auto.
    + rewrite (kp_inodes _ _ K2). exact Hi.
    + destruct C2 as [(_ & C & P)|(_ & P & _)]; split; rewrite P.
      * apply Hp.
      * intros d Hd. rewrite C. now apply Hp.
      * constructor.
      * intros d [].
    + destruct C2 as [(_ & C & P)|(_ & P & _)]; rewrite P; auto.
  - destruct C2 as [C|(A & B & C & D & _)]; [now left|right; auto].
  - intros sh c Hc Hh. apply (kp_own _ _ K2) in Hh. apply process_holds_kholds in Hh.
    apply (kunlock_holds (w_kern w)) in Hh. destruct Hh as [_ X]. apply X. apply range_end_covers in Hc. auto.
Qed.

Lemma unlock_each_ok f u fd : forall l w, owner f w u fd -> (l <> [] -> no_err w) -> (forall lk, In lk l -> 0 <= lk_start lk
     /\ match lk_end lk with Some e => lk_start lk < e | None => True end) ->
  exists w', unlock_each f l w = (Ok tt, w') /\ kept w w' /\ owner f w' u fd
    /\ (forall v, table w' v = table w v) /\ (forall v, waiters w' v = waiters w v) /\ reg_same_but u w w'
    /\ (table w u <> [] -> (forall d, w_fds w' d = w_fds w d) /\ pending w' u = pending w u)
    /\ (forall d, ~ In d (pending w u) -> w_fds w' d = w_fds w d)
    /\ (forall d, In d (pending w u) -> w_fds w' d = w_fds w d /\ In d (pending w' u) \/ w_fds w' d = None)
    /\ incl (pending w' u) (pending w u)
    /\ (forall lk sh b, In lk l -> in_range (lk_start lk) (lk_end lk) b -> ~ process_holds w' u sh b).
Proof.
  induction l as [|lk l IH]; intros w O Hio Hl.
  - exists w. split; [reflexivity|]. split; [apply kept_refl|]. split; [exact O|]. split; [auto|]. split; [auto|].
    split; [intros v _; reflexivity|]. split; [auto|]. split; [auto|]. split; [auto|]. split; [apply incl_refl|].
    intros lk sh b [].
  - destruct (Hl lk (or_introl eq_refl)) as [Hst Hen]. cbn [unlock_each].
    set (n := match lk_end lk with None => None | Some e => Some (e - lk_start lk) end).
    destruct (inner_file_unlock_ok f w u fd n (lk_start lk) O (Hio ltac:(discriminate)) Hst) as (w1 & E1 & K1 & O1 & T1 & W1 & R1 & C1 & H1).
    destruct (IH w1 O1) as (w2 & E2 & K2 & O2 & T2 & W2 & R2 & A2 & B2 & D2 & I2 & H2).
    { intros _. eapply no_err_kept; [exact K1|]. apply Hio. discriminate. }
    { intros x Hx. apply Hl. now right. }
    unfold bind. rewrite E1, E2. exists w2. split; [reflexivity|]. split; [eapply kept_trans; eauto|].
    split; [exact O2|]. split; [intros v; now rewrite T2, T1|]. split; [intros v; now rewrite W2, W1|].
    split; [intros v Hv; now rewrite R2, R1|].
    split; [|split; [|split; [|split]]].
    + intros Ht. destruct C1 as [(_ & C & P)|(X & _)]; [|congruence].
      destruct A2 as [A A']; [now rewrite T1|]. split; [intros d; now rewrite A, C|]. now rewrite A', P.
    + intros d Hd. destruct C1 as [(_ & C & P)|(_ & P & C & D)].
      * rewrite B2 by now rewrite P. apply C.
      * rewrite B2 by (rewrite P; tauto). now apply D.
    + intros d Hd. destruct C1 as [(_ & C & P)|(_ & P & C & D)].
      * rewrite <- P in Hd. rewrite <- (C d). now apply D2.
      * right. rewrite B2 by (rewrite P; tauto). now apply C.
    + eapply incl_tran; [exact I2|]. destruct C1 as [(_ & C & P)|(_ & P & C & D)]; rewrite P.
      * apply incl_refl.
      * intros x [].
    + intros x sh b [<-|Hx] Hb; [|now apply (H2 x)].
      intros Hh. apply (kp_own _ _ K2) in Hh. revert Hh. apply H1.
      unfold covers, n. unfold in_range in Hb. destruct (lk_end lk); [|tauto]. split; [tauto|]. right. lia.
Qed.

(** Records as the registry makes them. *)
Definition records_ok (l : list lockrec) : Prop :=
  forall lk, In lk l -> 0 <= lk_start lk /\ match lk_end lk with Some e => lk_start lk < e | None => True end.

Theorem raw_close_ok f w u fd : owner f w u fd -> f_closed f = false -> f_closefd f = true ->
  records_ok (mine w u fd) -> (mine w u fd <> [] -> no_err w) ->
  exists w', raw_close f w = (Ok tt, w') /\ kept w w'
    /\ mine w' u fd = []
    /\ table w' u = filter (fun lk => negb (lk_handle lk =? fd)) (table w u)
    /\ reg_same_but u w w'
    /\ (forall lk sh b, In lk (mine w u fd) -> in_range (lk_start lk) (lk_end lk) b -> ~ process_holds w' u sh b)
    /\ ((table w' u = [] /\ w_fds w' fd = None /\ (forall sh b, ~ process_holds w' u sh b)
         /\ pending w' u = [] /\ (forall d, In d (pending w u) -> w_fds w' d = None))
        \/ (table w' u <> [] /\ In fd (pending w' u) /\ (forall d, w_fds w' d = w_fds w d)
            /\ pending w' u = pending w u ++ [fd]))
    /\ (forall d, d <> fd -> ~ In d (pending w u) -> w_fds w' d = w_fds w d).
Proof.
  intros O Hc Hcf Hr Hio. pose proof O as [Eu Ef Hnz (o & Eo & Ho) Hi Hp Hf].
  unfold raw_close. rewrite Hc, Eu, Ef. unfold bind, remove_file_locks. fold (registry_of w).
  set (rm := filter (fun lk => lk_handle lk =? fd)). set (kp := filter (fun lk => negb (lk_handle lk =? fd))).
  assert (exists l reg, match r_map (registry_of w) u with
     | Some e => (rm (e_locks e), reg_set (registry_of w) u (Some (mkEntry (kp (e_locks e)) (e_data e) (e_waiting e))))
     | None => ([], registry_of w) end = (l, reg)
     /\ l = mine w u fd /\ r_pid reg = w_pid w
     /\ locks_of reg u = kp (table w u) /\ data_of reg u = pending w u /\ waiting_of reg u = waiters w u
     /\ (forall v, v <> u -> r_map reg v = r_map (registry_of w) v)) as (l & reg & El & -> & Pr & Lr & Dr & Wr & Or).
  { unfold mine, table, pending, waiters. destruct (r_map (registry_of w) u) as [e|] eqn:Ee.
    - eexists. eexists. split; [reflexivity|]. split; [reflexivity|]. split; [exact (registry_of_pid w)|].
      unfold locks_of, data_of, waiting_of. rewrite reg_set_eq. cbn [e_locks e_data e_waiting]. repeat split; auto.
      intros v Hv. now rewrite (reg_set_neq (registry_of w) u v) by congruence.
    - eexists. eexists. split; [reflexivity|]. split; [reflexivity|]. split; [exact (registry_of_pid w)|].
      unfold locks_of, data_of, waiting_of. rewrite Ee. auto. }
  rewrite El. set (w1 := set_reg w reg).
  assert (registry_of w1 = reg) as RR1 by (apply registry_of_id; exact Pr).
  assert (table w1 u = kp (table w u)) as T1 by (unfold w1; rewrite table_set_reg by exact Pr; exact Lr).
  assert (pending w1 u = pending w u) as P1 by (unfold w1; rewrite pending_set_reg by exact Pr; exact Dr).
  assert (owner f w1 u fd) as O1.
  { constructor; auto.
    - exists o. auto.
    - split; rewrite P1; apply Hp.
    - now rewrite P1. }
  destruct (unlock_each_ok f u fd (mine w u fd) w1 O1 Hio Hr)
    as (w2 & E2 & K2 & O2 & T2 & W2 & R2 & A2 & B2 & D2 & I2 & H2).
  rewrite E2. cbv iota beta.
  unfold inner_close_streams. rewrite Hcf, Eu, Ef. unfold bind, add_unique_id_data.
  apply Z.eqb_neq in Hnz. rewrite Hnz. fold (registry_of w2).
  destruct (ensure_entry_exists (registry_of w2) u) as [bb r2] eqn:Een.
  destruct (ensure_props _ _ _ _ Een) as (Q1 & (e & Ee) & Q3 & Q4 & _). rewrite Ee.
  destruct (Q3 u) as (L3 & D3 & W3).
  assert (locks_of (registry_of w2) u = table w2 u) as X1 by reflexivity.
  assert (data_of (registry_of w2) u = pending w2 u) as X2 by reflexivity.
  assert (e_locks e = table w2 u /\ e_data e = pending w2 u /\ e_waiting e = waiting_of (registry_of w2) u) as (Y1 & Y2 & Y3).
  { unfold locks_of, data_of, waiting_of in *. rewrite Ee in *. repeat split; congruence. }
  set (reg3 := reg_set _ _ _). set (w3 := set_reg w2 reg3).
  assert (r_pid reg3 = w_pid w2) as Pr3 by (cbn; rewrite Q1; apply registry_of_pid).
  assert (table w3 u = table w2 u /\ pending w3 u = pending w2 u ++ [fd]) as [T3 P3].
  { unfold w3. rewrite table_set_reg, pending_set_reg by exact Pr3. unfold locks_of, data_of, reg3.
    rewrite reg_set_eq. cbn. split; congruence. }
  destruct O2 as [_ _ _ (o2 & Eo2 & Ho2) Hi2 Hp2 Hf2].
  assert (pending_ok w3 u) as Hp3.
  { split; rewrite P3.
    - apply NoDup_rev in Hf2 || idtac. rewrite <- (rev_involutive (pending w2 u ++ [fd])). apply NoDup_rev.
      rewrite rev_app_distr. cbn. constructor.
      + rewrite <- in_rev. exact Hf2.
      + apply NoDup_rev, Hp2.
    - intros d Hd. apply in_app_or in Hd. destruct Hd as [Hd|[<-|[]]].
      + destruct (proj2 Hp2 d Hd) as (od & Ed1 & Ed2). exists od. auto.
      + exists o2. auto. }
  destruct (purge_ok u w3 Hp3) as (b4 & w4 & E4 & K4 & I4 & T4 & W4 & R4 & C4). rewrite E4. cbv iota beta.
  destruct (try_deleting_unique_id_entry (w_pid w4) (w_reg w4) u) as [bd reg5] eqn:Ed5.
  exists (set_reg w4 reg5).
  unfold try_deleting_unique_id_entry in Ed5. fold (registry_of w4) in Ed5.
  assert (r_pid reg5 = w_pid w4 /\ (forall v, locks_of reg5 v = table w4 v) /\ (forall v, data_of reg5 v = pending w4 v)
          /\ (forall v, v <> u -> r_map reg5 v = r_map (registry_of w4) v)) as (P5 & L5 & D5 & O5).
  { destruct (r_map (registry_of w4) u) as [e4|] eqn:Ee4.
    - destruct (negb (is_nil (e_locks e4)) || negb (is_nil (e_data e4)) || negb (e_waiting e4 =? 0)) eqn:Ec.
      + injection Ed5 as <- <-. repeat split; auto. apply registry_of_pid.
      + injection Ed5 as <- <-. rewrite !orb_false_iff, !negb_false_iff in Ec. destruct Ec as [[C1 C2] _].
        split; [exact (registry_of_pid w4)|].
        unfold locks_of, data_of, table, pending. repeat split.
        * intros v. destruct (uid_dec u v) as [<-|Hv]; [rewrite reg_set_eq, Ee4; now destruct (e_locks e4)
                                                       |now rewrite reg_set_neq].
        * intros v. destruct (uid_dec u v) as [<-|Hv]; [rewrite reg_set_eq, Ee4; now destruct (e_data e4)
                                                       |now rewrite reg_set_neq].
        * intros v Hv. apply reg_set_neq. congruence.
    - injection Ed5 as <- <-. repeat split; auto. apply registry_of_pid. }
  assert (forall v, table (set_reg w4 reg5) v = table w4 v) as T5 by (intros v; now rewrite table_set_reg, L5).
  assert (forall v, pending (set_reg w4 reg5) v = pending w4 v) as PE5 by (intros v; now rewrite pending_set_reg, D5).
  assert (table (set_reg w4 reg5) u = kp (table w u)) as T.
  { now rewrite T5, T4, T3, T2, T1. }
  assert (kept w2 w4) as K24 by (eapply kept_trans; [apply (kept_set_reg w2 reg3)|exact K4]).
  assert (kept w (set_reg w4 reg5)) as K.
  { eapply kept_trans; [apply (kept_set_reg w reg)|]. eapply kept_trans; [exact K2|].
    eapply kept_trans; [exact K24|]. apply kept_set_reg. }
  split; [reflexivity|]. split; [exact K|]. split; [|split; [exact T|split; [|split; [|split]]]].
  - unfold mine. rewrite T. unfold kp. apply filter_none. intros x Hx. now apply negb_true_iff in Hx.
  - intros v Hv. rewrite (registry_of_id (set_reg w4 reg5)) by exact P5. cbn [w_reg set_reg].
    rewrite O5, R4 by auto. rewrite (registry_of_id w3) by exact Pr3. cbn [w3 w_reg set_reg]. unfold reg3.
    rewrite reg_set_neq by congruence. rewrite Q4 by auto. rewrite R2 by auto. rewrite RR1. now apply Or.
  - intros lk sh b Hlk Hb Hh. apply (H2 lk sh b Hlk Hb). apply (kp_own _ _ K24). exact Hh.
  - change (w_fds (set_reg w4 reg5)) with (w_fds w4).
    assert (forall sh b, process_holds (set_reg w4 reg5) u sh b <-> process_holds w4 u sh b) as HH by reflexivity.
    assert (w_fds w3 = w_fds w2) as Fe by reflexivity.
    rewrite T5, PE5.
    destruct C4 as [(Ht & F4 & P4)|(Ht & P4 & F4 & G4 & H4)].
    + right. rewrite T4. split; [exact Ht|]. rewrite P4, P3. split; [apply in_or_app; right; now left|].
      assert (table w1 u <> []) as Hne. { rewrite <- T2, <- T3. exact Ht. }
      destruct (A2 Hne) as [Af Ap]. split.
      * intros d. rewrite F4, Fe, Af. reflexivity.
      * now rewrite Ap, P1.
    + left. rewrite T4. split; [exact Ht|]. rewrite P3 in *.
      split; [apply F4, in_or_app; right; now left|].
      split; [intros sh b; rewrite HH; apply H4; destruct (pending w2 u); discriminate|]. split; [exact P4|].
      intros d Hd. rewrite <- P1 in Hd. destruct (D2 d Hd) as [[_ Hin]|Hnone].
      * apply F4, in_or_app. now left.
      * destruct (kp_fds _ _ K4 d) as [X|X]; auto. rewrite X, Fe. exact Hnone.
  - intros d Hd Hnd. change (w_fds (set_reg w4 reg5)) with (w_fds w4).
    assert (w_fds w2 d = w_fds w d) as F2 by (rewrite B2; [reflexivity|now rewrite P1]).
    destruct C4 as [(_ & F4 & _)|(_ & _ & _ & G4 & _)].
    + rewrite F4. exact F2.
    + rewrite G4; [exact F2|]. rewrite P3. intros X. apply in_app_or in X. destruct X as [X|[X|[]]]; [|congruence].
      apply Hnd. rewrite <- P1. now apply I2.
Qed.
