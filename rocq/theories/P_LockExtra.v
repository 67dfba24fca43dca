(** Further facts about the lock system: non-interference between processes,
    uniqueness of grants, registry entries, termination of critical sections. *)
From Coq Require Import ZArith List Bool Lia ZifyBool.
From Verif Require Import M_Base M_Registry M_Kernel M_LockSys S_Locks S_LockSys P_Registry P_RegEff P_Kernel P_LockInv P_LockStep P_LockMicro P_LockMain.
Import ListNotations.
Open Scope Z_scope.

(** ** Actions of a process do not touch the others *)
Ltac dm E :=
  match type of E with
  | context [match ?x with _ => _ end] => destruct x eqn:?; try discriminate E
  end.

Lemma micro_other p P K t g P' K' :
  micro p P K t g = Some (P', K') ->
  forall q u sh b, q <> p -> (kholds K' q u sh b <-> kholds K q u sh b).
Proof.
  unfold micro. intros E q u sh b Hq.
  repeat dm E; injection E as _ <-; try tauto.
  - rewrite kunlock_holds. tauto.
  - rewrite kclose_holds. tauto.
Qed.

Lemma filter_other {A} (f : A -> bool) l x : f x = true -> (In x (filter f l) <-> In x l).
Proof. rewrite filter_In. tauto. Qed.

Lemma step_other s a s' p :
  step s a = Some s' -> acts_on a <> p ->
  s_procs s' p = s_procs s p
  /\ (forall h, h_pid h = p -> (In h (s_holds s') <-> In h (s_holds s)))
  /\ (forall u sh b, kholds (s_kern s') p u sh b <-> kholds (s_kern s) p u sh b).
Proof.
  intros E Hp.
  assert (forall q Q, q <> p -> upd Z.eqb (s_procs s) q Q p = s_procs s p) as HU.
  { intros q Q Hq. unfold upd. apply Z.eqb_neq in Hq. now rewrite Hq. }
  destruct a; simpl in E, Hp; repeat dm E; injection E as <-; unfold set_proc; cbn [s_procs s_kern s_holds];
    (split; [apply HU; auto|]); try (split; [tauto|tauto]).
  all: try (split; [intros h Hh; apply filter_other; unfold lock_matches, owned_by;
         destruct (h_pid h =? p0) eqn:X; [apply Z.eqb_eq in X; congruence|reflexivity]
       | first [tauto | intros u sh b; rewrite kexit_holds; split; [tauto|]; intros X; split; auto]]).
  - (* kern *) split.
    + intros h Hh. simpl. split; [|auto]. intros [<-|]; auto. simpl in Hh. congruence.
    + intros v sh b. match goal with H : ksetlk _ _ _ _ _ _ = Some _ |- _ => rewrite (ksetlk_holds _ _ _ _ _ _ _ H) end.
      split; [intros [(-> & _)|[X _]]; [congruence|auto]|]. intros X. right. split; auto. intros (-> & _). congruence.
  - split; [tauto|]. intros u sh b. eapply micro_other; eauto.
Qed.

(** ** A grant is recorded once *)
Lemma step_nodup s a s' : sinv false false false s -> step s a = Some s' ->
  NoDup (s_holds s) -> NoDup (s_holds s').
Proof.
  intros SI E ND.
  destruct a; simpl in E; repeat dm E; injection E as <-; unfold set_proc; cbn [s_holds]; auto;
    try (apply NoDup_filter; auto).
  constructor; auto.
  match goal with H : s_procs s p = Some ?P, Ht : nth_error (p_thr ?P) t = Some _ |- _ =>
    destruct (i_thr _ _ _ _ _ _ _ _ (s_live _ _ _ _ SI _ _ H) _ _ Ht) as (_ & _ & X); exact X end.
Qed.

Lemma reach_nodup acts s : exec anything init_sys acts = Some s -> NoDup (s_holds s).
Proof.
  assert (forall s0 s, sinv false false false s0 -> NoDup (s_holds s0) ->
            exec anything s0 acts = Some s -> NoDup (s_holds s)) as X.
  { induction acts as [|a l IH]; simpl; intros s0 s1 I N.
    - intros [= <-]. auto.
    - destruct (step s0 a) as [s2|] eqn:E; [|discriminate]. apply IH.
      + eapply step_sinv; eauto; discriminate.
      + eapply step_nodup; eauto. }
  apply X. apply init_sinv. constructor.
Qed.

Lemma count_wait_some u l : count_wait u l <> 0 ->
  exists t q n, nth_error l t = Some (PLockWait q n) /\ q_uid q = u.
Proof.
  induction l as [|c l IH]; [unfold count_wait; simpl; congruence|].
  rewrite count_wait_cons. destruct (waits_on u c) eqn:E.
  - intros _. destruct c; try discriminate. simpl in E. apply uid_eqb_eq in E. exists O, q, notified. auto.
  - simpl. intros H. destruct IH as (t & q & n & A & B); [lia|]. exists (S t), q, n. auto.
Qed.

(** ** Registry entries disappear with the last stream *)
Definition entry_at (p : Z) (r : registry) (u : uid) : Prop := r_map (check_forking p r) u <> None.

Lemma entry_set p r u v e : r_pid r = p ->
  entry_at p (reg_set r u e) v <-> (if uid_eqb u v then e <> None else entry_at p r v).
Proof.
  intros Hp. unfold entry_at. rewrite !cf_own by auto. destruct (uid_eqb u v) eqn:E.
  - apply uid_eqb_eq in E. subst v. rewrite reg_set_eq. tauto.
  - apply uid_eqb_neq in E. rewrite reg_set_neq by auto. tauto.
Qed.
Lemma entry_cf p r u : entry_at p (check_forking p r) u <-> entry_at p r u.
Proof. unfold entry_at. rewrite cf_idem. tauto. Qed.
Lemma entry_cf' p r u : r_map (check_forking p r) u <> None -> entry_at p r u.
Proof. auto. Qed.
(** replacing an existing entry *)
Lemma entry_repl p r u e v : r_map (check_forking p r) u = Some e ->
  forall e', entry_at p (reg_set (check_forking p r) u e') v -> entry_at p r v.
Proof.
  intros Eu e' X. apply entry_set in X; [|apply cf_pid]. destruct (uid_eqb u v) eqn:E.
  - apply uid_eqb_eq in E. subst v. unfold entry_at. congruence.
  - now apply entry_cf.
Qed.

Lemma entry_ensure p r u b r' v : r_pid r = p -> ensure_entry_exists r u = (b, r') ->
  r_pid r' = p /\ (entry_at p r' v -> v = u \/ entry_at p r v).
Proof.
  intros Hp. unfold ensure_entry_exists. destruct (r_map r u) as [e|] eqn:E; intros [= <- <-].
  - auto.
  - split; [exact Hp|]. intros X. apply entry_set in X; auto. destruct (uid_eqb u v) eqn:Ev; auto.
    apply uid_eqb_eq in Ev. auto.
Qed.

Lemma entry_try p r u h len st sh o r' v : r_pid r = p ->
  try_locking_range r u h len st sh = (o, r') -> entry_at p r' v -> v = u \/ entry_at p r v.
Proof.
  intros Hp. unfold try_locking_range.
  destruct (ensure_entry_exists r u) as [b r1] eqn:E1.
  destruct (entry_ensure p r u b r1 v Hp E1) as [Hp1 X].
  destruct (r_map r1 u) as [e|] eqn:E2; [|intros [= <- <-]; auto].
  destruct (scan_locks _ _ _ _ _); intros [= <- <-]; auto.
  intros Y. apply entry_set in Y; auto. destruct (uid_eqb u v) eqn:Ev; auto. apply uid_eqb_eq in Ev. auto.
Qed.

Lemma entry_waiting p r u d r' v : r_pid r = p -> add_waiting r u d = Ok r' ->
  r_pid r' = p /\ (entry_at p r' v -> entry_at p r v).
Proof.
  intros Hp. unfold add_waiting. destruct (r_map r u) as [e|] eqn:E; [|discriminate].
  intros [= <-]. split; [exact Hp|]. intros X. apply entry_set in X; auto. destruct (uid_eqb u v) eqn:Ev; auto.
  apply uid_eqb_eq in Ev. subst v. unfold entry_at. rewrite cf_own by auto. congruence.
Qed.

Lemma try_pid r u h len st sh o r' : try_locking_range r u h len st sh = (o, r') -> r_pid r' = r_pid r.
Proof.
  unfold try_locking_range, ensure_entry_exists.
  destruct (r_map r u) as [e|] eqn:E1.
  - rewrite E1. destruct (scan_locks _ _ _ _ _); intros [= <- <-]; auto.
  - rewrite reg_set_eq. destruct (scan_locks _ _ _ _ _); intros [= <- <-]; auto.
Qed.

Lemma entry_unregister p r u h len st o r' n v :
  unregister_file_lock p r u h len st = (o, r', n) -> entry_at p r' v -> entry_at p r v.
Proof.
  unfold unregister_file_lock, try_unlocking_range.
  destruct (r_map (check_forking p r) u) as [e|] eqn:E.
  - destruct (delete_match _ _ _ _); intros [= <- <- <-]; [|now rewrite entry_cf]. eapply entry_repl; eauto.
  - intros [= <- <- <-]. now rewrite entry_cf.
Qed.

Lemma entry_remove p r u h l r' v :
  remove_file_locks p r u h = (l, r') -> entry_at p r' v -> entry_at p r v.
Proof.
  unfold remove_file_locks. destruct (r_map (check_forking p r) u) as [e|] eqn:E; intros [= <- <-].
  - eapply entry_repl; eauto.
  - now rewrite entry_cf.
Qed.

Lemma entry_takedata p r u l r' v :
  remove_unique_id_data p r u = (l, r') -> entry_at p r' v -> entry_at p r v.
Proof.
  unfold remove_unique_id_data. destruct (r_map (check_forking p r) u) as [e|] eqn:E; intros [= <- <-].
  - eapply entry_repl; eauto.
  - now rewrite entry_cf.
Qed.

Lemma entry_adddata p r u d o r' v :
  add_unique_id_data p r u d = (o, r') -> entry_at p r' v -> v = u \/ entry_at p r v.
Proof.
  unfold add_unique_id_data. destruct (d =? 0); [intros [= <- <-]; auto|].
  destruct (ensure_entry_exists (check_forking p r) u) as [b r1] eqn:E1.
  destruct (entry_ensure p _ u b r1 v (cf_pid p r) E1) as [Hp1 X].
  destruct (r_map r1 u) as [e|] eqn:E2; intros [= <- <-]; rewrite entry_cf in X; auto.
  intros Y. apply entry_set in Y; auto. destruct (uid_eqb u v) eqn:Ev; auto. apply uid_eqb_eq in Ev. auto.
Qed.

Lemma entry_trydel p r u b r' v :
  try_deleting_unique_id_entry p r u = (b, r') -> entry_at p r' v ->
  entry_at p r v /\ (v = u -> EL p r u <> [] \/ ED p r u <> [] \/ EW p r u <> 0).
Proof.
  unfold try_deleting_unique_id_entry.
  pose proof (cf_pid p r) as Hp.
  destruct (r_map (check_forking p r) u) as [e|] eqn:E.
  - destruct (negb (is_nil (e_locks e)) || negb (is_nil (e_data e)) || negb (e_waiting e =? 0)) eqn:Ec; intros [= <- <-] X.
    + rewrite entry_cf in X. split; auto. intros ->.
      unfold EL, ED, EW, locks_of, data_of, waiting_of. rewrite E.
      rewrite !orb_true_iff, !negb_true_iff in Ec. destruct Ec as [[C|C]|C].
      * left. intros Y. rewrite Y in C. discriminate.
      * right; left. intros Y. rewrite Y in C. discriminate.
      * right; right. apply Z.eqb_neq in C. auto.
    + pose proof X as Y. apply entry_set in Y; auto. destruct (uid_eqb u v) eqn:Ev; [congruence|].
      rewrite entry_cf in Y. split; auto. intros ->. rewrite uid_eqb_refl in Ev. discriminate.
  - intros [= <- <-] X. rewrite entry_cf in X. split; auto. intros ->. unfold entry_at in X. congruence.
Qed.

Definition einv (p : Z) (P : proc) : Prop := forall u, entry_at p (p_reg P) u ->
  (exists fd st, p_streams P fd = Some st /\ st_uid st = u)
  \/ (exists t g, nth_error (p_thr P) t = Some (PProg g) /\ g_uid g = u /\ (g_fin g = FAdd \/ g_fin g = FDel)).

Lemma einv_mono p P P' :
  einv p P ->
  (forall u, entry_at p (p_reg P') u -> entry_at p (p_reg P) u \/ exists fd st, p_streams P' fd = Some st /\ st_uid st = u) ->
  (forall fd st, p_streams P fd = Some st -> p_streams P' fd = Some st) ->
  (forall t g, nth_error (p_thr P) t = Some (PProg g) -> exists t', nth_error (p_thr P') t' = Some (PProg g)) ->
  einv p P'.
Proof.
  intros I HE HS HT u X. apply HE in X. destruct X as [X|X]; auto.
  destruct (I u X) as [(fd & st & A & B)|(t & g & A & B)]; eauto 6.
  right. destruct (HT t g A) as (t' & A'). eauto.
Qed.

Lemma nth_notify u l t g : nth_error l t = Some (PProg g) -> nth_error (notify_all u l) t = Some (PProg g).
Proof. intros H. unfold notify_all. now rewrite nth_error_map, H. Qed.
Lemma nth_notify_inv u l t g : nth_error (notify_all u l) t = Some (PProg g) -> nth_error l t = Some (PProg g).
Proof.
  unfold notify_all. rewrite nth_error_map. destruct (nth_error l t) as [[]|]; simpl; try discriminate; auto.
  destruct (uid_eqb _ _); discriminate.
Qed.

Lemma keep_prog l t c d : nth_error l t = Some c -> (forall g, c <> PProg g) ->
  forall t' g, nth_error l t' = Some (PProg g) -> nth_error (nth_update l t d) t' = Some (PProg g).
Proof.
  intros H Hc t' g H'. rewrite nth_update_other; auto. intros ->. rewrite H in H'. injection H' as ->. now apply (Hc g).
Qed.

Definition sys_einv (s : sys) : Prop := forall p P, s_procs s p = Some P -> einv p P.

Lemma sys_einv_one s p P' K H : sys_einv s -> einv p P' ->
  sys_einv (mkSys (upd Z.eqb (s_procs s) p (Some P')) K H).
Proof.
  intros I E p' Q. cbn. unfold upd. destruct (p =? p') eqn:X; [|apply I].
  apply Z.eqb_eq in X. subst p'. intros [= <-]. auto.
Qed.

Lemma after_try_einv p P t q o r P' :
  after_try P t q o r = Some P' -> einv p P -> r_pid r = p ->
  (exists st, p_streams P (q_fd q) = Some st /\ st_uid st = q_uid q) ->
  (forall u, entry_at p r u -> u = q_uid q \/ entry_at p (p_reg P) u) ->
  (exists c, nth_error (p_thr P) t = Some c /\ forall g, c <> PProg g) ->
  einv p P'.
Proof.
  intros E I Hr (st & Hst & Hu) HE (c & Hc & Hn).
  assert (forall u, u = q_uid q \/ entry_at p (p_reg P) u ->
    entry_at p (p_reg P) u \/ exists fd st, p_streams P fd = Some st /\ st_uid st = u) as HH.
  { intros u [->|]; auto. right. eauto. }
  unfold after_try in E. destruct o as [[]|].
  - injection E as <-. eapply einv_mono; eauto; psimpl; auto.
    intros t' g H'. exists t'. eapply keep_prog; eauto.
  - destruct (q_block q).
    + destruct (add_waiting r (q_uid q) 1) as [r1|] eqn:Ea; [|discriminate]. injection E as <-.
      eapply einv_mono; eauto; psimpl; auto.
      * intros u X. apply HH, HE. now apply (entry_waiting p r (q_uid q) 1 r1 u Hr Ea).
      * intros t' g H'. exists t'. eapply keep_prog; eauto.
    + injection E as <-. eapply einv_mono; eauto; psimpl; auto.
      intros t' g H'. exists t'. eapply keep_prog; eauto.
  - injection E as <-. eapply einv_mono; eauto; psimpl; auto.
    intros t' g H'. exists t'. eapply keep_prog; eauto.
Qed.

Section OWN.
Variables strict polite : bool.
Notation pinv := (pinv strict polite true).
Notation sinv := (sinv strict polite true).

Lemma micro_einv p P H K t g P' K' :
  pinv None p P H K -> einv p P -> nth_error (p_thr P) t = Some (PProg g) ->
  micro p P K t g = Some (P', K') -> einv p P'.
Proof.
  intros I EI Ht E. pose proof (unique_prog _ _ _ _ _ _ _ _ _ _ I Ht) as Huniq.
  pose proof (i_thr _ _ _ _ _ _ _ _ I _ _ Ht) as PO. cbn [P_LockInv.thr_ok] in PO.
  assert (forall P1 g', p_streams P1 = p_streams P -> p_thr P1 = nth_update (p_thr P) t (PProg g') ->
    g_uid g' = g_uid g -> (g_fin g' = g_fin g \/ g_fin g = FAdd /\ g_fin g' = FDel) ->
    (forall u, entry_at p (p_reg P1) u -> (u = g_uid g /\ g_fin g' = FDel) \/ entry_at p (p_reg P) u) -> einv p P1) as Hgen.
  { intros P1 g' S1 S2 S3 S4 S5 u X. rewrite S1, S2.
    assert (nth_error (nth_update (p_thr P) t (PProg g')) t = Some (PProg g')) as Hs by (eapply nth_update_same; eauto).
    destruct (S5 u X) as [[-> Y]|Y].
    - right. exists t, g'. auto.
    - destruct (EI u Y) as [|(t0 & g0 & A & B & C)]; auto. destruct (Huniq _ _ A) as [-> ->].
      right. exists t, g'. split; auto. split; [congruence|]. destruct S4 as [->|[_ ->]]; auto. }
  assert (forall P1 c, p_streams P1 = p_streams P -> p_thr P1 = nth_update (p_thr P) t c ->
    (forall u, entry_at p (p_reg P1) u -> entry_at p (p_reg P) u) ->
    (forall u, entry_at p (p_reg P1) u -> u = g_uid g -> (g_fin g = FAdd \/ g_fin g = FDel) ->
        exists fd st, p_streams P fd = Some st /\ st_uid st = u) -> einv p P1) as Hgen2.
  { intros P1 c S1 S2 S3 S4 u X. rewrite S1.
    destruct (EI u (S3 u X)) as [|(t0 & g0 & A & B & C)]; auto. destruct (Huniq _ _ A) as [-> ->]. left. eauto. }
  unfold micro in E. destruct (g_closes g) as [|c cs] eqn:Ecl.
  2:{ destruct (p_fds P c); [|discriminate]. injection E as <- <-.
      eapply Hgen; try reflexivity; auto. }
  destruct (g_purge g) eqn:Epu.
  { destruct (unique_id_has_locks p (p_reg P) (g_uid g)) as [has r1] eqn:Eh.
    unfold unique_id_has_locks in Eh. injection Eh as Eh Er1.
    destruct (if has then ([], r1) else remove_unique_id_data p r1 (g_uid g)) as [data r2] eqn:Er.
    injection E as <- <-. eapply Hgen; try reflexivity; auto. cbn. intros u X. right.
    destruct has.
    - injection Er as <- <-. rewrite <- Er1 in X. now rewrite entry_cf in X.
    - apply (entry_takedata _ _ _ _ _ _ Er) in X. rewrite <- Er1 in X. now rewrite entry_cf in X. }
  destruct (g_unlocks g) as [|[lo hi] rest] eqn:Eun.
  2:{ destruct (p_fds P (g_fd g)); [|discriminate]. injection E as <- <-. eapply Hgen; try reflexivity; auto. }
  destruct (g_fin g) eqn:Ef.
  - injection E as <- <-. eapply Hgen2; try reflexivity; auto. intros u _ _ [X|X]; discriminate.
  - injection E as <- <-. eapply Hgen2; try reflexivity; auto. intros u _ _ [X|X]; discriminate.
  - destruct (add_unique_id_data p (p_reg P) (g_uid g) (g_fd g)) as [[]r'] eqn:Er; [|discriminate].
    injection E as <- <-. eapply Hgen; try reflexivity; auto. cbn. intros u X.
    apply (entry_adddata _ _ _ _ _ _ _ Er) in X. destruct X; auto.
  - destruct (try_deleting_unique_id_entry p (p_reg P) (g_uid g)) as [b r'] eqn:Er.
    injection E as <- <-. eapply Hgen2; try reflexivity; cbn.
    + intros u X. apply (entry_trydel _ _ _ _ _ _ Er) in X. tauto.
    + intros u X -> _. destruct (entry_trydel _ _ _ _ _ _ Er X) as [_ Y]. destruct (Y eq_refl) as [Z|[Z|Z]].
      * destruct (EL p (p_reg P) (g_uid g)) as [|lk l] eqn:EE; [congruence|].
        destruct (i_own _ _ _ _ _ _ _ _ I (g_uid g) lk) as (st & A & B); [rewrite EE; now left|]. eauto.
      * destruct (i_pend _ _ _ _ _ _ _ _ I eq_refl _ Z) as [|(t0 & g0 & A & B & C)]; auto.
        destruct (Huniq _ _ A) as [-> ->]. destruct C; congruence.
      * rewrite (i_wait _ _ _ _ _ _ _ _ I) in Z.
        destruct (count_wait_some _ _ Z) as (t' & q & n & A & B).
        pose proof (i_thr _ _ _ _ _ _ _ _ I _ _ A) as (_ & st & S1 & S2). exists (q_fd q), st. split; [auto|congruence].
  - exfalso. exact (i_noext _ _ _ _ _ _ _ _ I eq_refl _ _ Ht Ef).
Qed.

Lemma step_einv s a s' :
  sinv s -> step s a = Some s' -> owning_streams s a = true -> sys_einv s -> sys_einv s'.
Proof.
  intros SI E Dow EI. destruct a; simpl in E.
  - destruct (s_procs s p) eqn:Hp; [discriminate|]. injection E as <-. apply sys_einv_one; auto.
    intros u X. exfalso. apply X. cbn. rewrite cf_own by reflexivity. reflexivity.
  - destruct (s_procs s p) as [P|] eqn:Hp; [|discriminate]. injection E as <-. apply sys_einv_one; auto.
    eapply einv_mono; eauto; psimpl; auto. intros t g H. exists t. rewrite nth_error_app1; auto.
    apply nth_error_Some. congruence.
  - destruct (s_procs s p) as [P|] eqn:Hp; [|discriminate]. injection E as <-.
    intros p' Q. cbn. unfold upd. destruct (p =? p'); [discriminate|apply EI].
  - destruct (s_procs s p) as [P|] eqn:Hp; [|discriminate]. destruct (s_procs s c) eqn:Hc; [discriminate|].
    destruct (_ && _) eqn:Eg; [|discriminate]. injection E as <-. apply sys_einv_one; auto.
    apply andb_true_iff in Eg. destruct Eg as [_ Eg]. apply negb_true_iff in Eg.
    intros u X. exfalso. apply X. cbn. unfold check_forking. now rewrite Eg.
  - destruct (s_procs s p) as [P|] eqn:Hp; [|discriminate]. destruct (p_fds P fd) eqn:Hfd; [discriminate|].
    destruct (0 <? fd); [|discriminate]. injection E as <-. apply sys_einv_one; auto.
    eapply einv_mono; eauto; psimpl; eauto.
    intros f st Hf. rewrite zupd_neq; auto. intros <-.
    destruct (i_str _ _ _ _ _ _ _ _ (s_live _ _ _ _ SI _ _ Hp) _ _ Hf). congruence.
  - destruct (s_procs s p) as [P|] eqn:Hp; [|discriminate]. destruct (p_fds P fd) eqn:Hfd; [discriminate|].
    injection E as <-. apply sys_einv_one; auto. eapply einv_mono; eauto; psimpl; eauto.
  - destruct (s_procs s p) as [P|] eqn:Hp; [|discriminate]. destruct (p_fds P fd) as [u|] eqn:Hfd; [|discriminate].
    destruct (p_ext P fd && (0 <? fd)) eqn:Hx; [|discriminate]. apply andb_true_iff in Hx. destruct Hx as [Hx _].
    injection E as <-. apply sys_einv_one; auto. eapply einv_mono; eauto; psimpl; eauto.
    intros f st Hf. rewrite zupd_neq; auto. intros <-.
    destruct (i_str _ _ _ _ _ _ _ _ (s_live _ _ _ _ SI _ _ Hp) _ _ Hf) as (_ & X & _). congruence.
  - destruct (s_procs s p) as [P|] eqn:Hp; [|discriminate]. destruct (nth_error (p_thr P) t) as [[]|] eqn:Ht; try discriminate.
    destruct (p_streams P fd) as [st|] eqn:Hst; [|discriminate]. destruct (_ && _); [|discriminate]. injection E as <-.
    apply sys_einv_one; auto. eapply einv_mono; eauto; psimpl; auto.
    intros t' g H'. exists t'. eapply keep_prog; eauto. discriminate.
  - destruct (s_procs s p) as [P|] eqn:Hp; [|discriminate]. destruct (nth_error (p_thr P) t) as [[]|] eqn:Ht; try discriminate.
    destruct (mutex_free P); [|discriminate].
    destruct (register_once true p (p_reg P) (q_uid q) (q_fd q) (q_len q) (q_off q) (q_shared q)) as [o r] eqn:Er.
    destruct (after_try P t q o r) as [P'|] eqn:Ea; [|discriminate]. injection E as <-. apply sys_einv_one; auto.
    destruct (i_thr _ _ _ _ _ _ _ _ (s_live _ _ _ _ SI _ _ Hp) _ _ Ht) as (_ & Hst).
    eapply after_try_einv; eauto.
    + unfold register_once in Er. apply try_pid in Er. rewrite Er. apply cf_pid.
    + intros u X. unfold register_once in Er. apply (entry_try p _ _ _ _ _ _ _ _ u (cf_pid p _) Er) in X.
      now rewrite entry_cf in X.
    + eexists. split; [exact Ht|]. discriminate.
  - destruct (s_procs s p) as [P|] eqn:Hp; [|discriminate]. destruct (nth_error (p_thr P) t) as [[| |q nt| | | |]|] eqn:Ht; try discriminate.
    destruct nt; [|discriminate]. destruct (mutex_free P); [|discriminate].
    pose proof (s_live _ _ _ _ SI _ _ Hp) as I.
    assert (EW p (p_reg P) (q_uid q) <> 0) as Hw.
    { rewrite (i_wait _ _ _ _ _ _ _ _ I). pose proof (count_wait_pos _ _ _ _ _ Ht eq_refl). lia. }
    destruct (waiting_own _ _ _ Hw) as [Hpid Hex].
    destruct (add_waiting (p_reg P) (q_uid q) (-1)) as [r1|] eqn:Ew; [|discriminate].
    destruct (register_once false p r1 (q_uid q) (q_fd q) (q_len q) (q_off q) (q_shared q)) as [o r] eqn:Er.
    destruct (after_try P t q o r) as [P'|] eqn:Ea; [|discriminate]. injection E as <-. apply sys_einv_one; auto.
    destruct (i_thr _ _ _ _ _ _ _ _ I _ _ Ht) as (_ & Hst).
    assert (r_pid r1 = p) as Hp1 by apply (entry_waiting p (p_reg P) (q_uid q) (-1) r1 (q_uid q) Hpid Ew).
    eapply after_try_einv; eauto.
    + unfold register_once in Er. apply try_pid in Er. congruence.
    + intros u X. unfold register_once in Er. apply (entry_try p _ _ _ _ _ _ _ _ u Hp1 Er) in X.
      destruct X; auto. right. now apply (entry_waiting p (p_reg P) (q_uid q) (-1) r1 u Hpid Ew).
    + eexists. split; [exact Ht|]. discriminate.
  - destruct (s_procs s p) as [P|] eqn:Hp; [|discriminate]. destruct (nth_error (p_thr P) t) as [[]|] eqn:Ht; try discriminate.
    injection E as <-. apply sys_einv_one; auto. eapply einv_mono; eauto; psimpl; auto.
    intros t' g H'. exists t'. eapply keep_prog; eauto. discriminate.
  - destruct (s_procs s p) as [P|] eqn:Hp; [|discriminate]. destruct (nth_error (p_thr P) t) as [[]|] eqn:Ht; try discriminate.
    injection E as <-. apply sys_einv_one; auto. eapply einv_mono; eauto; psimpl; auto.
    intros t' g H'. exists t'. eapply keep_prog; eauto. discriminate.
  - destruct (s_procs s p) as [P|] eqn:Hp; [|discriminate]. destruct (nth_error (p_thr P) t) as [[]|] eqn:Ht; try discriminate.
    repeat dm E. injection E as <-. apply sys_einv_one; auto. eapply einv_mono; eauto; psimpl; auto.
    intros t' g H'. exists t'. eapply keep_prog; eauto. discriminate.
  - destruct (s_procs s p) as [P|] eqn:Hp; [|discriminate]. destruct (nth_error (p_thr P) t) as [[]|] eqn:Ht; try discriminate.
    injection E as <-. apply sys_einv_one; auto. eapply einv_mono; eauto; psimpl; auto.
    intros t' g H'. exists t'. eapply keep_prog; eauto. discriminate.
  - destruct (s_procs s p) as [P|] eqn:Hp; [|discriminate]. destruct (nth_error (p_thr P) t) as [[]|] eqn:Ht; try discriminate.
    destruct (mutex_free P); [|discriminate].
    destruct (unregister_file_lock p (p_reg P) (q_uid q) (q_fd q) (q_len q) (q_off q)) as [[x r] n] eqn:Er.
    destruct x; [|discriminate]. injection E as <-. apply sys_einv_one; auto.
    eapply einv_mono; eauto.
    + intros u X. left. eapply entry_unregister; eauto. destruct n; exact X.
    + intros f st Hf. destruct n; exact Hf.
    + intros t' g H'. exists t'. assert (nth_error (nth_update (p_thr P) t PIdle) t' = Some (PProg g)) as Y
        by (eapply keep_prog; eauto; discriminate).
      destruct n; psimpl; auto. now apply nth_notify.
  - destruct (s_procs s p) as [P|] eqn:Hp; [|discriminate]. destruct (nth_error (p_thr P) t) as [[]|] eqn:Ht; try discriminate.
    destruct (p_streams P fd) as [st|] eqn:Hst; [|discriminate]. destruct (_ && _); [|discriminate].
    destruct (unregister_file_lock p (p_reg P) (st_uid st) fd len off) as [[x r] n] eqn:Er.
    destruct x; injection E as <-; apply sys_einv_one; auto.
    + eapply einv_mono; eauto.
      * intros u X. left. eapply entry_unregister; eauto. destruct n; exact X.
      * intros f s0 Hf. destruct n; exact Hf.
      * intros t' g H'. exists t'. set (g1 := mkProg _ _ _ _ _ _).
        assert (nth_error (nth_update (p_thr P) t (PProg g1)) t' = Some (PProg g)) as Y
          by (eapply keep_prog; eauto; discriminate).
        destruct n; psimpl; auto. now apply nth_notify.
    + eapply einv_mono; eauto. intros u X. left. eapply entry_unregister; eauto.
  - destruct (s_procs s p) as [P|] eqn:Hp; [|discriminate]. destruct (nth_error (p_thr P) t) as [[]|] eqn:Ht; try discriminate.
    destruct (p_streams P fd) as [st|] eqn:Hst; [|discriminate]. destruct (_ && _) eqn:Eg; [|discriminate].
    destruct (remove_file_locks p (p_reg P) (st_uid st) fd) as [removed r] eqn:Er.
    injection E as <-. apply sys_einv_one; auto.
    pose proof (s_live _ _ _ _ SI _ _ Hp) as I.
    rewrite (i_closefd _ _ _ _ _ _ _ _ I eq_refl _ _ Hst).
    intros u X. cbn in X. apply (entry_remove _ _ _ _ _ _ _ Er) in X.
    destruct (uid_dec u (st_uid st)) as [->|Hu].
    + right. eexists t, _. split; [eapply nth_update_same; eauto|]. cbn. auto.
    + destruct (EI p P Hp u X) as [(f & s0 & A & B)|(t0 & g0 & A & B)].
      * left. exists f, s0. split; auto. psimpl. rewrite zupd_neq; auto. intros <-. congruence.
      * right. exists t0, g0. split; auto. psimpl. eapply keep_prog; eauto. discriminate.
  - destruct (s_procs s p) as [P|] eqn:Hp; [|discriminate]. destruct (nth_error (p_thr P) t) as [[| | | | | |g]|] eqn:Ht; try discriminate.
    destruct (holds_mutex P t); [|discriminate]. destruct (micro p P (s_kern s) t g) as [[P' K']|] eqn:Em; [|discriminate].
    injection E as <-. apply sys_einv_one; auto.
    eapply micro_einv; eauto. eapply s_live; eauto.
Qed.

End OWN.

Lemma reach_einv acts s : exec owning_streams init_sys acts = Some s -> sys_einv s.
Proof.
  assert (forall s0 s, sinv false false true s0 -> sys_einv s0 ->
            exec owning_streams s0 acts = Some s -> sys_einv s) as X.
  { induction acts as [|a l IH]; simpl; intros s0 s1 I N.
    - intros [= <-]. auto.
    - destruct (owning_streams s0 a) eqn:Eo; [|discriminate].
      destruct (step s0 a) as [s2|] eqn:E; [|discriminate]. apply IH.
      + eapply step_sinv; eauto; discriminate.
      + eapply step_einv; eauto. }
  apply X. apply init_sinv. intros p P. discriminate.
Qed.

(** ** Critical sections terminate *)
Definition fin_rank (f : fin) : nat := match f with FAdd => 5 | FDel => 1 | FExt => 1 | _ => 0 end.
Definition meas (g : prog) : nat := fin_rank (g_fin g) + 2 * length (g_unlocks g) + (if g_purge g then 1 else 0).

Lemma micro_decr p P K t g P' K' :
  micro p P K t g = Some (P', K') -> nth_error (p_thr P) t = Some (PProg g) ->
  p_streams P' = p_streams P /\
  ((p_mutex P' = MFree /\ nth_error (p_thr P') t = Some PIdle)
   \/ exists g', nth_error (p_thr P') t = Some (PProg g')
      /\ p_mutex P' = p_mutex P
      /\ ((meas g' < meas g)%nat \/ (meas g' = meas g /\ length (g_closes g') < length (g_closes g))%nat)).
Proof.
  unfold micro. intros E Ht.
  assert (forall c, nth_error (nth_update (p_thr P) t c) t = Some c) as Hs by (intros; eapply nth_update_same; eauto).
  unfold meas. destruct (g_closes g) as [|c cs] eqn:Ecl.
  2:{ destruct (p_fds P c); [|discriminate]. injection E as <- <-. split; auto. right.
      eexists. psimpl. rewrite Hs. split; [reflexivity|]. split; [auto|]. right. cbn. lia. }
  destruct (g_purge g) eqn:Epu.
  { destruct (unique_id_has_locks p (p_reg P) (g_uid g)) as [has r1].
    destruct (if has then ([], r1) else remove_unique_id_data p r1 (g_uid g)) as [data r2].
    injection E as <- <-. split; auto. right. eexists. psimpl. rewrite Hs. split; [reflexivity|]. split; [auto|]. left. cbn. lia. }
  destruct (g_unlocks g) as [|[lo hi] rest] eqn:Eun.
  2:{ destruct (p_fds P (g_fd g)); [|discriminate]. injection E as <- <-. split; auto. right.
      eexists. psimpl. rewrite Hs. split; [reflexivity|]. split; [auto|]. left. cbn. lia. }
  destruct (g_fin g) eqn:Ef.
  - injection E as <- <-. split; auto. left. psimpl. auto.
  - injection E as <- <-. split; auto. left. psimpl. auto.
  - destruct (add_unique_id_data p (p_reg P) (g_uid g) (g_fd g)) as [[]r']; [|discriminate].
    injection E as <- <-. split; auto. right. eexists. psimpl. rewrite Hs. split; [reflexivity|]. split; [auto|]. left. cbn. lia.
  - destruct (try_deleting_unique_id_entry p (p_reg P) (g_uid g)) as [b r'].
    injection E as <- <-. split; auto. right. eexists. psimpl. rewrite Hs. split; [reflexivity|]. split; [auto|]. left. cbn. lia.
  - injection E as <- <-. split; auto. right. eexists. psimpl. rewrite Hs. split; [reflexivity|]. split; [auto|]. left. cbn. lia.
Qed.

Lemma exec_app ok s l1 l2 : exec ok s (l1 ++ l2) =
  match exec ok s l1 with Some s1 => exec ok s1 l2 | None => None end.
Proof.
  revert s. induction l1 as [|a l IH]; simpl; intros s; auto.
  destruct (ok s a); auto. destruct (step s a); auto.
Qed.

Lemma prog_terminates m n : forall s p P t g,
  sinv false false false s -> s_procs s p = Some P -> nth_error (p_thr P) t = Some (PProg g) ->
  (meas g <= m)%nat -> (length (g_closes g) <= n)%nat ->
  exists k s' P', exec anything s (repeat (AMicro p t) k) = Some s' /\ s_procs s' p = Some P'
    /\ nth_error (p_thr P') t = Some PIdle /\ p_mutex P' = MFree /\ p_streams P' = p_streams P
    /\ s_holds s' = s_holds s.
Proof.
  revert n. induction m as [m IHm] using lt_wf_ind. induction n as [n IHn] using lt_wf_ind.
  intros s p P t g SI Hp Ht Hm Hn.
  pose proof (s_live _ _ _ _ SI _ _ Hp) as I.
  destruct (micro_pinv _ _ _ p P (s_holds s) (s_kern s) t g I Ht) as (P1 & K1 & EM & _).
  assert (step s (AMicro p t) = Some (mkSys (upd Z.eqb (s_procs s) p (Some P1)) K1 (s_holds s))) as ES.
  { simpl. rewrite Hp, Ht. unfold holds_mutex. rewrite (i_mutex _ _ _ _ _ _ _ _ I _ _ Ht), Nat.eqb_refl, EM. auto. }
  set (s1 := mkSys (upd Z.eqb (s_procs s) p (Some P1)) K1 (s_holds s)) in *.
  assert (s_procs s1 p = Some P1) as Hp1 by (cbn; unfold upd; now rewrite Z.eqb_refl).
  assert (sinv false false false s1) as SI1 by (eapply step_sinv; eauto; discriminate).
  destruct (micro_decr _ _ _ _ _ _ _ EM Ht) as [HS [[A B]|(g' & A & B & C)]].
  - exists 1%nat, s1, P1. cbn [repeat exec]. rewrite ES. unfold anything. auto 8.
  - assert (exists k s' P', exec anything s1 (repeat (AMicro p t) k) = Some s' /\ s_procs s' p = Some P'
      /\ nth_error (p_thr P') t = Some PIdle /\ p_mutex P' = MFree /\ p_streams P' = p_streams P1
      /\ s_holds s' = s_holds s1) as (k & s' & P' & X1 & X2 & X3 & X4 & X5 & X6).
    { destruct C as [C|[C1 C2]].
      - eapply (IHm (meas g') ltac:(lia) (length (g_closes g'))); eauto.
      - eapply (IHn (length (g_closes g')) ltac:(lia)); eauto; lia. }
    exists (S k), s', P'. cbn [repeat exec]. rewrite ES. unfold anything at 1. rewrite X1, X5, HS. auto 8.
Qed.

Lemma exec_weaken ok s acts s' : exec ok s acts = Some s' -> exec anything s acts = Some s'.
Proof.
  revert s. induction acts as [|a l IH]; simpl; intros s; auto.
  destruct (ok s a); [|discriminate]. destruct (step s a); [|discriminate]. auto.
Qed.
