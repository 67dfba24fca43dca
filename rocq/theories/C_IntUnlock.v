(** C111: unlock_file() when a signal handler raises at one of its instructions. *)
From Coq Require Import ZArith Ascii String List Bool Lia.
From Verif Require Import M_Base M_Modes M_Registry M_Kernel M_World M_Raw M_IntWrite M_IntClose M_IntUnlock S_Locks S_LockFile S_IntClose S_Demo
  P_Raw P_Registry P_RegEff P_Kernel P_Lock P_LockFile P_Close C_IntClose.
Import ListNotations.
Open Scope Z_scope.

Lemma agree_raise {A} e : agree (@raise cstate A e) (@raise world A e).
Proof. split; intros s r s' [= <- <-]; auto. Qed.
Lemma agree_skip {A} (mi : I A) m : agree mi m -> agree (tick ;; mi) m.
Proof. intros H. eapply agree_eq; [apply agree_bind; [apply agree_tick|intros ?; exact H]|reflexivity]. Qed.
(** Unless the handler raises, the call is that of M_Raw (C09, C21, C79). *)
Theorem C111_uninterrupted f length offset whence w due r s :
  unlock_file_i f length offset whence (mkCst due false w) = (r, s) -> (c_due s = None -> due = None) ->
  raw_unlock_file f length offset whence w = (r, c_world s).
Proof.
  assert (G : agree (unlock_file_i f length offset whence) (raw_unlock_file f length offset whence)).
  { unfold unlock_file_i, raw_unlock_file. apply agree_skip. apply agree_bind; [apply agree_world|intros ?].
    destruct (bad_nonneg length); [apply agree_raise|]. destruct (bad_nonneg offset); [apply agree_raise|].
    destruct (negb (seek_value whence)); [apply agree_raise|].
    apply agree_skip. apply agree_bind; [apply agree_world|intros off]. apply agree_skip.
    apply agree_bind; [|intros ?; apply agree_skip, agree_unlock].
    eapply agree_eq; [apply agree_world|]. intros w1. unfold unrecord.
    destruct (unregister_file_lock _ _ _ _ _ _) as [[[x|e] reg] n]; reflexivity. }
  intros E D. exact (proj2 G _ _ _ E D).
Qed.
(** Interrupted at one of its first three instructions, the call did nothing and can be repeated. *)
Theorem C111_before f length offset whence w n r s : (n <= 2)%nat ->
  unlock_file_i f length offset whence (mkCst (Some n) false w) = (r, s) ->
  (forall d, w_fds (c_world s) d = w_fds w d) /\ w_reg (c_world s) = w_reg w /\ w_kern (c_world s) = w_kern w
  /\ w_inodes (c_world s) = w_inodes w.
Proof.
  intros Hn. unfold unlock_file_i, bind, tick, in_world, raise. cbn [c_due c_marked c_world].
  destruct n as [|n]; [intros [= <- <-]; cbn; auto|]. cbn [c_due c_marked c_world].
  assert (C : check_seekable f w = (fst (check_seekable f w), w)).
  { unfold check_seekable, check_closed, bind, ret, raise. destruct (f_closed f); [reflexivity|]. destruct (f_seekable f); reflexivity. }
  rewrite C. destruct (fst (check_seekable f w)) as [x|e]; [|intros [= <- <-]; cbn; auto].
  destruct (bad_nonneg length); [intros [= <- <-]; cbn; auto|]. destruct (bad_nonneg offset); [intros [= <- <-]; cbn; auto|].
  destruct (negb (seek_value whence)); [intros [= <- <-]; cbn; auto|].
  cbn [c_due c_marked c_world]. destruct n as [|n]; [intros [= <- <-]; cbn; auto|]. cbn [c_due c_marked c_world].
  destruct (abs_offset f offset whence w) as [r1 w1] eqn:E1. apply abs_offset_pres in E1 as [F1 F2].
  assert (X : w_reg w1 = w_reg w /\ w_kern w1 = w_kern w /\ w_inodes w1 = w_inodes w) by (rewrite F2; cbn; auto). destruct X as (X1 & X2 & X3).
  destruct r1 as [off|e]; [|intros [= <- <-]; cbn; auto].
  cbn [c_due c_marked c_world]. destruct n as [|n]; [intros [= <- <-]; cbn; auto|lia].
Qed.

(** * The locks of other streams *)
Lemma unrecord_views u fd len off w r w' : unrecord u fd len off w = (r, w') ->
  Vsame w w' u /\ pending w' u = pending w u
  /\ ((r = Ok tt /\ table w u = [] /\ table w' u = [])
      \/ (r = Ok tt /\ exists l1 lk l2, table w u = l1 ++ lk :: l2 /\ table w' u = l1 ++ l2
            /\ lk_handle lk = fd /\ lk_start lk = off /\ lk_end lk = range_end off len)
      \/ ((exists e, r = Err e) /\ table w' u = table w u)).
Proof.
  unfold unrecord. destruct (unregister_file_lock (w_pid w) (w_reg w) u fd len off) as [[o r'] n] eqn:E.
  apply unregister_eff in E as (Hp & D & W & L & C). intros [= <- <-]. split; [|split].
  - repeat split; [exact (L v H)|exact (D v)|exact (W v)].
  - exact (D u).
  - destruct C as [(-> & _ & C1 & C2)|[(x & l1 & lk & l2 & -> & _ & C1 & C2 & C3)|(x & -> & _ & C1 & _)]].
    + left. auto.
    + right. left. split; [reflexivity|]. exists l1, lk, l2. auto.
    + right. right. split; [eauto|exact C1].
Qed.
Lemma range_kend off len : kend off (klen len) = range_end off len.
Proof. unfold kend, klen, range_end. destruct len as [l|]; reflexivity. Qed.
Section Calls.
Variable P : world -> Prop.
Variables (f : rawio) (u : uid) (fd : Z).
Hypothesis Hfd : f_fd f = Some fd.
Hypothesis Huid : f_uid f = Some u.
Variable QR : Z -> option Z -> Prop.
Hypothesis Pfds : forall w x, (forall d, x d = w_fds w d) -> P w -> P (set_fds w x).
Hypothesis Preg : forall len off w r w', unrecord u fd len off w = (r, w') -> P w -> P w' /\ forall a, r = Ok a -> QR off (range_end off len).
Hypothesis Punlock : forall len off w r w', QR off (range_end off len) -> sys_unlock fd off (klen len) w = (r, w') -> P w -> P w'.
Hypothesis Ppurge : inv P (purge_i u) any.
Lemma inv_raise {A} e (Q : A -> Prop) : inv P (raise e) Q.
Proof. intros s r s' [= <- <-] H. split; [exact H|discriminate]. Qed.
Lemma inv_unlock_file length offset whence due w r s : unlock_file_i f length offset whence (mkCst due false w) = (r, s) -> P w -> P (c_world s).
Proof.
  intros E X. enough (G : inv P (unlock_file_i f length offset whence) any) by exact (proj1 (G _ _ _ E X)). clear E X.
  unfold unlock_file_i. eapply inv_bind; [apply inv_tick|intros ? _]. apply (inv_bind _ _ _ any).
  { apply inv_world. unfold any. intros w1 r1 w1' E1 X. split; [|auto]. revert E1.
    unfold check_seekable, check_closed, bind, ret, raise. destruct (f_closed f); [intros [= <- <-]; auto|]. destruct (f_seekable f); intros [= <- <-]; auto. }
  intros ? _. destruct (bad_nonneg length); [apply inv_raise|]. destruct (bad_nonneg offset); [apply inv_raise|].
  destruct (negb (seek_value whence)); [apply inv_raise|]. eapply inv_bind; [apply inv_tick|intros ? _].
  apply (inv_bind _ _ _ any).
  { apply inv_world. unfold any. intros w1 r1 w1' E1 X. split; [|auto]. apply abs_offset_pres in E1 as [F1 ->]. now apply Pfds. }
  intros off _. eapply inv_bind; [apply inv_tick|intros ? _]. 
  replace (uid_of f) with u by (unfold uid_of; now rewrite Huid). replace (fd_of f) with fd by (unfold fd_of; now rewrite Hfd).
  apply (inv_bind _ _ _ (fun _ => QR off (range_end off (parg_opt length)))); [apply inv_world; intros; eapply Preg; eauto|].
  intros ? HQ. eapply inv_bind; [apply inv_tick|intros ? _]. unfold unlock_i.
  replace (uid_of f) with u by (unfold uid_of; now rewrite Huid). replace (fd_of f) with fd by (unfold fd_of; now rewrite Hfd).
  apply inv_finally; [|exact Ppurge]. eapply inv_bind; [apply inv_tick|intros ? _]. apply (inv_bind _ _ _ any); [|intros ? _; apply inv_tick].
  apply inv_world. unfold any. intros w1 r1 w1' E1 X. split; [|auto]. eapply Punlock; eauto.
Qed.
End Calls.

(** [Oth] of C_IntClose, with descriptors compared one by one. *)
Section Others.
Variables (f : rawio) (u : uid) (fd : Z) (w0 : world).
Hypothesis Hs : streaming f w0 u fd.
Hypothesis Hothers : of_others w0 u fd <> [].
Definition Oth1 (w : world) : Prop :=
  (forall d, w_fds w d = w_fds w0 d) /\ w_pid w = w_pid w0 /\ incl (table w u) (table w0 u) /\ incl (of_others w0 u fd) (table w u)
  /\ forall p v sh b, someone_holds w0 p v sh b -> ~ (p = w_pid w0 /\ v = u /\ covered (mine w0 u fd) b) -> someone_holds w p v sh b.
Lemma oth1_V w w' : Vsame w w' u -> incl (table w' u) (table w0 u) -> incl (of_others w0 u fd) (table w' u) -> Oth1 w -> Oth1 w'.
Proof.
  intros (V1 & _ & _ & V4 & Vk & _) H1 H2 (O1 & O2 & O3 & O4 & O5). unfold Oth1, someone_holds in *. rewrite V1, V4, Vk. auto 10.
Qed.
Lemma oth1_purge : inv Oth1 (purge_i u) any.
Proof.
  unfold purge_i. eapply inv_bind; [apply inv_tick|intros ? _]. apply (inv_bind _ _ _ (fun b => b = true)).
  { apply inv_world. intros w r w' E X. apply has_views in E as (V & Et & _ & b & -> & Hb). split.
    - eapply oth1_V; eauto; rewrite Et; apply X.
    - intros b' [= <-]. destruct b; [reflexivity|]. exfalso. apply Hothers. destruct X as (_ & _ & _ & X & _).
      rewrite (proj1 Hb eq_refl) in X. now apply incl_l_nil in X. }
  intros has ->. eapply inv_bind; [apply inv_tick|intros ? _]. apply inv_ret.
Qed.
Lemma oth1_call length offset whence due r s : unlock_file_i f length offset whence (mkCst due false w0) = (r, s) -> Oth1 (c_world s).
Proof.
  destruct Hs as [_ Hfd Huid (o & Eo & Ho)]. intros E.
  eapply (inv_unlock_file Oth1 f u fd Hfd Huid (fun lo hi => exists lk, In lk (mine w0 u fd) /\ lk_start lk = lo /\ lk_end lk = hi)); eauto.
  - intros w x Hx (O1 & O). split; [|exact O]. intros d. cbn. rewrite Hx. apply O1.
  - intros len off w r1 w' E1 X. apply unrecord_views in E1 as (V & _ & C). pose proof X as (O1 & O2 & O3 & O4 & O5).
    destruct C as [(-> & C1 & C2)|[(-> & l1 & lk & l2 & C1 & C2 & C3 & C4 & C5)|((e & ->) & C)]].
    + exfalso. apply Hothers. rewrite C1 in O4. now apply incl_l_nil in O4.
    + split.
      * apply (oth1_V w w' V); [| |exact X].
        -- rewrite C2. intros x Hx. apply O3. rewrite C1. apply in_app_or in Hx. apply in_or_app. cbn. tauto.
        -- rewrite C2. intros x Hx. pose proof (O4 x Hx) as Hx'. rewrite C1 in Hx'. apply in_app_or in Hx'. apply in_or_app.
           destruct Hx' as [?|[<-|?]]; auto. unfold of_others in Hx. apply filter_In in Hx as [_ Hx]. apply negb_true_iff, Z.eqb_neq in Hx. congruence.
      * intros _ _. exists lk. split; [|auto]. unfold mine. apply filter_In. split; [|now apply Z.eqb_eq].
        apply O3. rewrite C1. apply in_or_app. right. now left.
    + split; [|discriminate]. apply (oth1_V w w' V); [| |exact X]; rewrite C; assumption.
  - intros len off w r1 w' (lk & Hl & L1 & L2) E1 X. apply unlock_views in E1 as (V1 & _ & _ & V4 & V5 & Vk). destruct X as (O1 & O2 & O3 & O4 & O6).
    destruct (views_eq w w' u V4 V5) as (Et & _ & _). unfold Oth1. rewrite V1, V4, Et.
    repeat (split; [assumption|]). intros p v sh b H0 Hn. specialize (O6 p v sh b H0 Hn).
    destruct Vk as [Vk|(o' & Eo' & Vk)]; unfold someone_holds in *; rewrite Vk; [exact O6|].
    apply kunlock_holds. split; [exact O6|]. intros (-> & -> & Hr). apply Hn.
    rewrite O1, Eo in Eo'. injection Eo' as <-. split; [exact O2|]. split; [exact Ho|].
    exists lk. split; [exact Hl|]. rewrite L1, L2. now rewrite range_kend in Hr.
  - apply oth1_purge.
  - unfold Oth1. repeat split; auto using incl_refl. unfold of_others. intros x Hx. now apply filter_In in Hx.
Qed.
End Others.
(** Wherever it is interrupted: as long as other streams of the process have locks on the file no descriptor is closed, their records stay,
    and nobody loses a lock but the process on the bytes that the stream itself had locked. *)
Theorem C111_locks_of_others f w u fd length offset whence due r s : streaming f w u fd -> of_others w u fd <> [] ->
  unlock_file_i f length offset whence (mkCst due false w) = (r, s) ->
  (forall d, w_fds (c_world s) d = w_fds w d)
  /\ incl (of_others w u fd) (table (c_world s) u)
  /\ forall p v sh b, someone_holds w p v sh b -> ~ (p = w_pid w /\ v = u /\ covered (mine w u fd) b) -> someone_holds (c_world s) p v sh b.
Proof.
  intros H1 H2 E. destruct (oth1_call f u fd w H1 H2 length offset whence due r s E) as (O1 & O2 & O3 & O4 & O5). auto.
Qed.

(** * Closing the stream makes up for it *)
Section Recover.
Variables (f : rawio) (u : uid) (fd : Z) (w0 : world).
Hypothesis Ho : owning f w0 u fd.
Definition Rec (w : world) : Prop :=
  w_fds w fd = w_fds w0 fd /\ w_inodes w = w_inodes w0 /\ incl (table w u) (table w0 u) /\ incl (w_io w) (w_io w0)
  /\ pending_ok w u /\ incl (pending w u) (pending w0 u).
Definition Rec2 (w : world) : Prop := Rec w /\ pending w u = [].
Lemma rec_V w w' : Vsame w w' u -> incl (table w' u) (table w u) -> w_io w' = w_io w -> pending w' u = pending w u -> Rec w -> Rec w'.
Proof.
  intros (V1 & V2 & _) Ht Hi Hp (R1 & R2 & R3 & R4 & [R5 R5'] & R6). unfold Rec, pending_ok. rewrite V1, V2, Hi, Hp.
  repeat (split; [assumption|]). split; [eapply incl_tran; eauto|]. auto.
Qed.
Lemma rec2_close d w r w' : sys_close d w = (r, w') -> In d (pending w0 u) -> Rec2 w -> Rec2 w'.
Proof.
  unfold sys_close. destruct (w_fds w d) as [o|]; intros [= <- <-]; [|auto]. intros Hd [(R1 & R2 & R3 & R4 & R5 & R6) R7].
  split; [|exact R7]. unfold Rec, pending_ok. change (table (set_kern _ _) u) with (table w u). change (pending (set_kern _ _) u) with (pending w u).
  rewrite R7. split.
  { cbn. unfold upd. destruct (Z.eqb_spec d fd) as [->|]; [|exact R1]. now destruct (og_fresh _ _ _ _ Ho). }
  split; [exact R2|]. split; [exact R3|]. split; [exact R4|]. split; [split; [constructor|intros ? []]|intros ? []].
Qed.
Lemma rec2_close_all : forall l, incl l (pending w0 u) -> inv Rec2 (close_all_i l) any.
Proof.
  induction l as [|d l IH]; intros Hl; cbn [close_all_i]; [apply inv_ret|].
  eapply inv_bind; [apply inv_tick|intros ? _]. apply (inv_bind _ _ _ any).
  { apply inv_world. intros w r w' E X. unfold any. split; [|auto]. eapply rec2_close; eauto. apply Hl. now left. }
  intros ? _. eapply inv_bind; [apply inv_tick|intros ? _]. apply IH. intros x Hx. apply Hl. now right.
Qed.
Lemma has_io v w r w' : has_locks v w = (r, w') -> w_io w' = w_io w.
Proof. unfold has_locks. destruct (unique_id_has_locks _ _ _). now intros [= <- <-]. Qed.
Lemma data_io v w r w' : take_data v w = (r, w') -> w_io w' = w_io w.
Proof. unfold take_data. destruct (remove_unique_id_data _ _ _). now intros [= <- <-]. Qed.
Lemma rec_purge : inv Rec (purge_i u) any.
Proof.
  unfold purge_i. eapply inv_bind; [apply inv_tick|intros ? _]. apply (inv_bind _ _ _ any).
  { apply inv_world. intros w r w' E X. pose proof (has_io _ _ _ _ E). apply has_views in E as (V & Et & Ep & _). unfold any. split; [|auto].
    apply (rec_V w w'); auto. rewrite Et. apply incl_refl. }
  intros has _. eapply inv_bind; [apply inv_tick|intros ? _]. destruct has; [apply inv_ret|].
  intros s r s' E X. split; [|unfold any; auto]. unfold bind at 1, in_world in E. destruct (take_data u (c_world s)) as [rd w1] eqn:Ed.
  pose proof (data_io _ _ _ _ Ed) as Hi. apply data_views in Ed as ((V1 & V2 & _) & Et & Ep & ->).
  destruct X as (R1 & R2 & R3 & R4 & R5 & R6).
  assert (X2 : Rec2 w1).
  { split; [|exact Ep]. unfold Rec, pending_ok. rewrite V1, V2, Hi, Ep, Et.
    repeat (split; [assumption|]). split; [split; [constructor|intros ? []]|intros ? []]. }
  assert (G : inv Rec2 (tick ;; close_all_i (pending (c_world s) u)) any).
  { eapply inv_bind; [apply inv_tick|intros ? _]. now apply rec2_close_all. }
  destruct (G _ _ _ E X2) as [[G1 _] _]. exact G1.
Qed.
Lemma rec_call length offset whence due r s : unlock_file_i f length offset whence (mkCst due false w0) = (r, s) -> Rec (c_world s).
Proof.
  destruct Ho as [[Hop Hfd Huid Hfile] Hnz Hcf Hino Hfr Hnd Hpo]. intros E.
  eapply (inv_unlock_file Rec f u fd Hfd Huid (fun _ _ => True)); eauto.
  - intros w x Hx (R1 & R2 & R3 & R4 & [R5 R5'] & R6). unfold Rec, pending_ok. cbn [w_fds set_fds]. rewrite Hx.
    repeat (split; [assumption|]). split; [|exact R6]. split; [exact R5|]. intros d Hd. rewrite Hx. now apply R5'.
  - intros len off w r1 w' E1 X. split; [|auto]. assert (w_io w' = w_io w) as Hi.
    { revert E1. unfold unrecord. destruct (unregister_file_lock _ _ _ _ _ _) as [[? ?] ?]. now intros [= <- <-]. }
    apply unrecord_views in E1 as (V & Hp & C). apply (rec_V w w'); auto.
    destruct C as [(_ & _ & ->)|[(_ & l1 & lk & l2 & -> & -> & _)|(_ & ->)]]; [intros ? []| |apply incl_refl].
    intros x Hx. apply in_app_or in Hx. apply in_or_app. cbn. tauto.
  - intros len off w r1 w' _ E1 (R1 & R2 & R3 & R4 & [R5 R5'] & R6). pose proof (kp_io _ _ (sys_unlock_kept _ _ _ _ _ _ E1)) as Hi.
    apply unlock_views in E1 as (V1 & V2 & _ & V4 & V5 & _). destruct (views_eq w w' u V4 V5) as (Et & Ep & _).
    unfold Rec, pending_ok. rewrite V1, V2, Et, Ep. repeat (split; [assumption|]). split; [eapply incl_tran; eauto|]. auto.
  - apply rec_purge.
  - unfold Rec, pending_ok. auto 12 using incl_refl.
Qed.
End Recover.
(** Wherever unlock_file() was interrupted, close() still releases everything, if no other stream of the process has locks on the file and
    no system call fails. *)
Theorem C111_close_releases f w u fd length offset whence due r s : owning f w u fd -> well_made (mine w u fd) -> of_others w u fd = [] ->
  faultless w -> unlock_file_i f length offset whence (mkCst due false w) = (r, s) ->
  exists w', raw_close f (c_world s) = (Ok tt, w') /\ w_fds w' fd = None /\ forall sh b, ~ process_holds w' u sh b.
Proof.
  intros Ho Hm Hot Hf E. destruct (rec_call f u fd w Ho _ _ _ _ _ _ E) as (R1 & R2 & R3 & R4 & R5 & R6).
  destruct Ho as [[Hop Hfd Huid Hfile] Hnz Hcf Hino Hfr Hnd Hpo].
  assert (O : owner f (c_world s) u fd).
  { constructor; auto; [rewrite R1; exact Hfile|now rewrite R2]. }
  assert (Hmi : incl (mine (c_world s) u fd) (mine w u fd)).
  { intros x Hx. unfold mine in *. apply filter_In in Hx. apply filter_In. split; [apply R3|]; tauto. }
  destruct (raw_close_ok f (c_world s) u fd O Hop Hcf) as (w' & C1 & _ & _ & C2 & _ & _ & C3 & _).
  - intros lk Hl. apply Hm, Hmi, Hl.
  - intros _ e He. apply (Hf e), R4, He.
  - exists w'. split; [exact C1|]. destruct C3 as [(_ & C3 & C4 & _)|(C3 & _)]; [auto|]. exfalso. apply C3. rewrite C2.
    assert (X : incl (filter (fun lk => negb (lk_handle lk =? fd)) (table (c_world s) u)) (of_others w u fd)).
    { intros x Hx. unfold of_others. apply filter_In in Hx. apply filter_In. split; [apply R3|]; tauto. }
    rewrite Hot in X. now apply incl_l_nil in X.
Qed.

(** * From when on the lock is released *)
Section Done.
Variables (u : uid) (lo : Z) (hi : option Z) (pid : Z).
Definition Gone (w : world) : Prop := w_pid w = pid /\ forall sh b, in_range lo hi b -> ~ process_holds w u sh b.
Lemma gone_kept w w' : kept w w' -> Gone w -> Gone w'.
Proof. intros K [H1 H2]. split; [rewrite (kp_pid _ _ K); exact H1|]. intros sh b Hb X. apply (H2 sh b Hb). now apply (kp_own _ _ K). Qed.
Lemma gone_close_all : forall l, inv Gone (close_all_i l) any.
Proof.
  induction l as [|d l IH]; cbn [close_all_i]; [apply inv_ret|].
  eapply inv_bind; [apply inv_tick|intros ? _]. apply (inv_bind _ _ _ any); [|intros ? _; eapply inv_bind; [apply inv_tick|intros ? _; exact IH]].
  apply inv_world. intros w r w' E X. unfold any. split; [|auto]. eapply gone_kept; [eapply sys_close_kept; eauto|exact X].
Qed.
Lemma gone_purge v : inv Gone (purge_i v) any.
Proof.
  unfold purge_i. eapply inv_bind; [apply inv_tick|intros ? _]. apply (inv_bind _ _ _ any).
  { apply inv_world. intros w r w' E X. unfold any. split; [|auto]. revert E. unfold has_locks. destruct (unique_id_has_locks _ _ _) as [b r1].
    intros [= <- <-]. eapply gone_kept; [apply kept_set_reg|exact X]. }
  intros has _. eapply inv_bind; [apply inv_tick|intros ? _]. destruct has; [apply inv_ret|]. apply (inv_bind _ _ _ any).
  { apply inv_world. intros w r w' E X. unfold any. split; [|auto]. revert E. unfold take_data. destruct (remove_unique_id_data _ _ _) as [b r1].
    intros [= <- <-]. eapply gone_kept; [apply kept_set_reg|exact X]. }
  intros l _. eapply inv_bind; [apply inv_tick|intros ? _]. apply gone_close_all.
Qed.
End Done.
Lemma unlock_ok fd off n w o : w_fds w fd = Some o -> w_inodes w (o_uid o) <> None -> faultless w -> 0 <= off ->
  exists w', sys_unlock fd off n w = (Ok tt, w') /\ w_pid w' = w_pid w
    /\ w_kern w' = kunlock (w_kern w) (w_pid w) (o_uid o) off (kend off n).
Proof.
  intros E1 E2 F H. unfold sys_unlock, bind, get_fd. rewrite E1. destruct (w_inodes w (o_uid o)) as [i|]; [|congruence].
  rewrite next_io_eq. destruct (Z.ltb_spec off 0); [lia|].
  destruct (w_io w) as [|[|k|e] io] eqn:Ei; cbn [hd]; try (eexists; split; [reflexivity|split; reflexivity]).
  exfalso. apply (F e). rewrite Ei. now left.
Qed.
(** If the handler raises at the sixth instruction or later, after lockf(LOCK_UN), the kernel has released the area. *)
Theorem C111_released f w u fd length off due r s : owning f w u fd -> faultless w -> 0 <= off ->
  fst (raw_unlock_file f length (PInt off) 0 w) = Ok tt -> (forall n, due = Some n -> (5 <= n)%nat) ->
  unlock_file_i f length (PInt off) 0 (mkCst due false w) = (r, s) ->
  forall sh b, covers off (parg_opt length) b -> ~ process_holds (c_world s) u sh b.
Proof.
  intros Ho Hf H0 Hok Hd E sh b Hb. destruct Ho as [[Hop Hfd Huid (o & Eo & Hu)] Hnz Hcf Hino Hfr Hnd Hpo].
  assert (C : check_seekable f w = (fst (check_seekable f w), w)).
  { unfold check_seekable, check_closed, bind, ret, raise. destruct (f_closed f); [reflexivity|]. destruct (f_seekable f); reflexivity. }
  unfold raw_unlock_file, bind at 1 in Hok. rewrite C in Hok. destruct (fst (check_seekable f w)) as [x|e] eqn:Ec; [|discriminate].
  destruct (bad_nonneg length) eqn:B1; [discriminate|]. destruct (bad_nonneg (PInt off)) eqn:B2; [discriminate|].
  change (negb (seek_value 0)) with false in Hok. cbv iota in Hok. unfold abs_offset in Hok. change (0 =? 0) with true in Hok.
  unfold bind, ret in Hok.
  assert (Er : exists w1, unrecord (uid_of f) (fd_of f) (parg_opt length) off w = (Ok tt, w1) /\ w1 = set_reg w (w_reg w1)).
  { unfold unrecord. destruct (unregister_file_lock (w_pid w) (w_reg w) (uid_of f) (fd_of f) (parg_opt length) off) as [[[y|e] reg] n]; [|discriminate].
    eexists. split; reflexivity. }
  destruct Er as (w1 & Er & Ew1).
  assert (Es : exists s1, (c_world s1 = w1) /\ (forall n, c_due s1 = Some n -> (1 <= n)%nat)
                 /\ unlock_file_i f length (PInt off) 0 (mkCst due false w) = unlock_i f (parg_opt length) off s1).
  { unfold unlock_file_i. rewrite B1, B2. change (negb (seek_value 0)) with false. cbv iota.
    unfold bind, tick, in_world, abs_offset, ret. cbn [c_due c_marked c_world].
    destruct due as [[|[|[|[|[|n]]]]]|]; try (specialize (Hd _ eq_refl); lia); cbn [c_due c_marked c_world]; rewrite C; cbn [c_due c_marked c_world];
      change (0 =? 0) with true; cbn [c_due c_marked c_world]; rewrite Er; cbn [c_due c_marked c_world].
    - eexists (mkCst (Some (S n)) false w1). split; [reflexivity|]. split; [cbn; intros m [= <-]; lia|reflexivity].
    - eexists (mkCst None false w1). split; [reflexivity|]. split; [cbn; discriminate|reflexivity]. }
  destruct Es as (s1 & Ew & Hd1 & Es). rewrite Es in E. clear Es.
  assert (F1 : w_fds w1 fd = Some o /\ w_inodes w1 (o_uid o) <> None /\ faultless w1 /\ w_pid w1 = w_pid w).
  { rewrite Ew1. cbn. rewrite Hu. auto. }
  destruct F1 as (F1 & F2 & F3 & F4). destruct (unlock_ok fd off (klen (parg_opt length)) w1 o F1 F2 F3 H0) as (w2 & G1 & G2 & G3).
  assert (Gw : Gone u off (range_end off (parg_opt length)) (w_pid w) w2).
  { split; [congruence|]. intros sh1 b1 Hb1 (k & K1 & K2 & K3). rewrite G3, G2 in *.
    assert (X : someone_holds w2 (w_pid w1) u sh1 b1) by (exists k; rewrite G3; tauto). unfold someone_holds in X. rewrite G3 in X.
    apply kunlock_holds in X as [_ X]. apply X. split; [reflexivity|]. split; [congruence|]. now rewrite range_kend. }
  assert (Gs : Gone u off (range_end off (parg_opt length)) (w_pid w) (c_world s)).
  { unfold unlock_i, finally, bind in E. replace (fd_of f) with fd in E by (unfold fd_of; now rewrite Hfd).
    destruct s1 as [d1 c1 ww]. cbn [c_world c_due] in Ew, Hd1. subst ww.
    assert (T1 : exists d2, tick (mkCst d1 c1 w1) = (Ok tt, mkCst d2 c1 w1)).
    { unfold tick. cbn. destruct d1 as [[|m]|]; [specialize (Hd1 _ eq_refl); lia|eauto|eauto]. }
    destruct T1 as (d2 & T1). rewrite T1 in E. unfold in_world in E at 1. cbn [c_world c_due c_marked] in E. rewrite G1 in E.
    destruct (tick (mkCst d2 c1 w2)) as [rt st] eqn:Et.
    pose proof (inv_tick (Gone u off (range_end off (parg_opt length)) (w_pid w)) _ _ _ Et Gw) as [G4 _].
    destruct (purge_i (uid_of f) st) as [rp sp] eqn:Ep. pose proof (gone_purge _ _ _ _ _ _ _ _ Ep G4) as [G5 _].
    destruct rp; injection E as _ <-; exact G5. }
  apply Gs. unfold in_range, range_end. unfold covers in Hb. destruct (parg_opt length) as [l|]; [|tauto].
  destruct (Z.eqb_spec l 0); [tauto|]. destruct Hb as [? [?|?]]; [contradiction|auto].
Qed.

(** * What is lost *)
(** The stream [locked] of C_IntClose: what each interrupted call raises, the records left, the kernel locks left. *)
Example C111_example : let '(f, w) := locked in
  (map (fun n => let '(r, s) := unlock_file_i f PNone (PInt 0) 0 (mkCst (Some n) false w) in
                 (r, length (table (c_world s) (1, 10)), length (w_kern (c_world s)))) (seq 0 10)
  = [(Err HANDLER, 1, 1); (Err HANDLER, 1, 1); (Err HANDLER, 1, 1); (Err HANDLER, 0, 1); (Err HANDLER, 0, 1); (Err HANDLER, 0, 0);
     (Err HANDLER, 0, 0); (Err HANDLER, 0, 0); (Err HANDLER, 0, 0); (Ok tt, 0, 0)]%nat)
  /\ owning f w (1, 10) 3 /\ well_made (mine w (1, 10) 3) /\ of_others w (1, 10) 3 = [] /\ faultless w.
Proof.
  vm_compute. split; [reflexivity|]. split.
  - constructor; try reflexivity; try discriminate; try (intros []; fail); try (constructor; fail); try (intros ? []; fail).
    constructor; try reflexivity. eexists. split; reflexivity.
  - split; [|split; [reflexivity|intros e []]]. intros lk [<-|[]]. split; [discriminate|exact Logic.I].
Qed.
(** False: that the call, or else the same call made again, releases the lock.  The second call raises RuntimeError, since the registry has
    no record, while other processes still find the file locked. *)
Theorem C111_released_refuted :
  ~ (forall f w u fd length offset due r r' w', owning f w u fd -> of_others w u fd = [] -> faultless w ->
       fst (raw_unlock_file f length offset 0 w) = Ok tt ->
       unlock_twice_i f length offset 0 due w = (r, r', w') -> table w' u = [] -> forall sh b, ~ process_holds w' u sh b).
Proof.
  intros H. destruct locked as [f w] eqn:Ed.
  specialize (H f w (1, 10) 3 PNone (PInt 0) (Some 3%nat) (Err HANDLER) (Err ERuntime) (snd (unlock_twice_i f PNone (PInt 0) 0 (Some 3%nat) w))).
  vm_compute in Ed. injection Ed as <- <-. revert H. vm_compute. intros H.
  refine (H _ eq_refl _ eq_refl eq_refl eq_refl false 0 _).
  - constructor; try reflexivity; try discriminate; try (intros []; fail); try (constructor; fail); try (intros ? []; fail).
    constructor; try reflexivity. eexists. split; reflexivity.
  - intros e [].
  - eexists. split; [left; reflexivity|]. repeat split; try reflexivity. discriminate.
Qed.
Example C111_locks_of_others_example : let '(f, g, w) := two in
  streaming f w (1, 10) 3 /\ of_others w (1, 10) 3 <> []
  /\ let '(g', w1) := (g, snd (raw_unlock_file g PNone (PInt 0) 0 w)) in
     let '(r1, w1) := raw_lock_file f PNone (PInt 5) (PInt 0) 0 SNone w1 in
     let '(r2, w1) := raw_lock_file g' PNone (PInt 5) (PInt 5) 0 SNone w1 in
     of_others w1 (1, 10) 3 <> []
     /\ map (fun n => let '(r, s) := unlock_file_i f (PInt 5) (PInt 0) 0 (mkCst (Some n) false w1) in
                      (opens (c_world s) 3, opens (c_world s) 4, map (fun k => (k_lo k, k_hi k)) (w_kern (c_world s)))) [3; 4; 5; 7; 9]%nat
     = [(Some (1, 10), Some (1, 10), [(5, Some 10); (0, Some 5)]); (Some (1, 10), Some (1, 10), [(5, Some 10); (0, Some 5)]);
        (Some (1, 10), Some (1, 10), [(5, Some 10)]); (Some (1, 10), Some (1, 10), [(5, Some 10)]); (Some (1, 10), Some (1, 10), [(5, Some 10)])].
Proof.
  vm_compute. split; [|split; [discriminate|split; [discriminate|reflexivity]]]. constructor; try reflexivity. eexists. split; reflexivity.
Qed.
Print Assumptions C111_uninterrupted.
Print Assumptions C111_before.
Print Assumptions C111_locks_of_others.
Print Assumptions C111_close_releases.
Print Assumptions C111_released.
Print Assumptions C111_released_refuted.
