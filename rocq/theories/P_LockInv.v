(** The invariant of the lock system. *)
From Coq Require Import ZArith List Bool Lia ZifyBool.
From Verif Require Import M_Base M_Registry M_Kernel M_LockSys S_Locks S_LockSys P_Registry P_RegEff P_Kernel.
Import ListNotations.
Open Scope Z_scope.

(** ** Generic list facts *)
Lemma nth_update_same {A} (l : list A) t x y :
  nth_error l t = Some y -> nth_error (nth_update l t x) t = Some x.
Proof. revert t. induction l as [|a l IH]; intros [|t]; simpl; auto; discriminate. Qed.
Lemma nth_update_other {A} (l : list A) t t' x :
  t <> t' -> nth_error (nth_update l t x) t' = nth_error l t'.
Proof. revert t t'. induction l as [|a l IH]; intros [|t] [|t'] H; simpl; auto; lia. Qed.
Lemma nth_update_inv {A} (l : list A) t t' x c :
  nth_error (nth_update l t x) t' = Some c ->
  (t' = t /\ c = x /\ nth_error l t <> None) \/ (t' <> t /\ nth_error l t' = Some c).
Proof.
  intros H. destruct (Nat.eq_dec t t') as [<-|Hn].
  - left. destruct (nth_error l t) eqn:E.
    + rewrite (nth_update_same _ _ _ _ E) in H. split; auto. split; congruence.
    + exfalso. clear -H E. revert t E H. induction l as [|a l IH]; intros [|t]; simpl; try discriminate. apply IH.
  - right. rewrite nth_update_other in H by auto. auto.
Qed.
Lemma nth_update_twice {A} (l : list A) t x y : nth_update (nth_update l t x) t y = nth_update l t y.
Proof. revert t. induction l as [|a l IH]; intros [|t]; simpl; auto. now rewrite IH. Qed.

Definition count_wait (u : uid) (l : list pc) : Z := Z.of_nat (length (filter (waits_on u) l)).
Definition b2z (b : bool) : Z := if b then 1 else 0.

Lemma count_wait_cons u c l : count_wait u (c :: l) = b2z (waits_on u c) + count_wait u l.
Proof. unfold count_wait; cbn [filter]. destruct (waits_on u c); cbn [length b2z]; lia. Qed.
Lemma count_wait_update u l t c c' :
  nth_error l t = Some c ->
  count_wait u (nth_update l t c') = count_wait u l - b2z (waits_on u c) + b2z (waits_on u c').
Proof.
  revert t. induction l as [|a l IH]; intros [|t]; simpl; try discriminate.
  - intros [= ->]. rewrite !count_wait_cons. lia.
  - intros H. rewrite !count_wait_cons, (IH _ H). lia.
Qed.
Lemma count_wait_app u l c : count_wait u (l ++ [c]) = count_wait u l + b2z (waits_on u c).
Proof. unfold count_wait. rewrite filter_app, app_length. cbn [filter]. destruct (waits_on u c); cbn [length b2z]; lia. Qed.
Lemma count_wait_pos u l t q n :
  nth_error l t = Some (PLockWait q n) -> q_uid q = u -> 0 < count_wait u l.
Proof.
  revert t. induction l as [|a l IH]; intros [|t]; simpl; try discriminate; rewrite count_wait_cons.
  - intros [= ->] <-. simpl. rewrite uid_eqb_refl. unfold count_wait. cbn [b2z]. lia.
  - intros H E. specialize (IH _ H E). destruct (waits_on u a); cbn [b2z]; lia.
Qed.
Lemma count_wait_nonneg u l : 0 <= count_wait u l.
Proof. unfold count_wait. lia. Qed.

(** ** notify_all *)
Definition notify1 (u : uid) (c : pc) : pc :=
  match c with PLockWait q _ => if uid_eqb (q_uid q) u then PLockWait q true else c | _ => c end.
Lemma notify_all_map u l : notify_all u l = map (notify1 u) l.
Proof. reflexivity. Qed.
Lemma count_wait_notify u v l : count_wait v (notify_all u l) = count_wait v l.
Proof.
  rewrite notify_all_map. induction l as [|a l IH]; simpl; auto. rewrite !count_wait_cons, IH. f_equal.
  destruct a; simpl; auto. destruct (uid_eqb (q_uid q) u); auto.
Qed.
Lemma nth_notify u l t : nth_error (notify_all u l) t = option_map (notify1 u) (nth_error l t).
Proof. rewrite notify_all_map. now rewrite nth_error_map. Qed.

(** ** Updates of total maps *)
Lemma zupd_eq {V} (m : Z -> V) k v : upd Z.eqb m k v k = v.
Proof. unfold upd. now rewrite Z.eqb_refl. Qed.
Lemma zupd_neq {V} (m : Z -> V) k k' v : k <> k' -> upd Z.eqb m k v k' = m k'.
Proof. intros H. unfold upd. apply Z.eqb_neq in H. now rewrite H. Qed.

(** ** Lock tables *)
Section INV.
Variables strict polite owning : bool.

Definition rshare (a b : lockrec) : Prop := share_byte (lk_start a) (lk_end a) (lk_start b) (lk_end b).
Definition rbyte (a : lockrec) (b : Z) : Prop := in_range (lk_start a) (lk_end a) b.

Record tab_ok (L : list lockrec) : Prop := {
  tab_nodup : NoDup L;
  tab_nonempty : forall a, In a L -> exists b, rbyte a b;
  tab_compat : forall a b, In a L -> In b L -> a <> b -> rshare a b ->
      lk_handle a <> lk_handle b /\ lk_shared a = true /\ lk_shared b = true /\ strict = false }.

Lemma tab_nil : tab_ok [].
Proof. split; [constructor|intros a []|intros a b []]. Qed.

Lemma tab_app L x :
  tab_ok L -> (exists b, rbyte x b) ->
  (forall a, In a L -> ~ conflicts_same a (lk_handle x) (lk_start x) (lk_end x)
                       /\ ~ conflicts_other a (lk_handle x) (lk_start x) (lk_end x) (lk_shared x)) ->
  (strict = true -> forall a, In a L -> lk_handle a <> lk_handle x -> lk_shared a = true ->
      lk_shared x = true -> ~ rshare a x) ->
  tab_ok (L ++ [x]).
Proof.
  intros [T1 T2 T3] (b & Hb) Hc Hs.
  assert (~ In x L) as Hnx.
  { intros Hx. destruct (Hc x Hx) as [C1 _]. apply C1. split; auto. exists b; auto. }
  assert (forall a, In a L -> rshare a x ->
      lk_handle a <> lk_handle x /\ lk_shared a = true /\ lk_shared x = true /\ strict = false) as HX.
  { intros a Ha Hsh. destruct (Hc a Ha) as [C1 C2].
    assert (lk_handle a <> lk_handle x) as N by (intros E; apply C1; split; auto).
    destruct (lk_shared a) eqn:E1; [|exfalso; apply C2; split; [auto|split; [rewrite E1; intros [? ?]; discriminate|auto]]].
    destruct (lk_shared x) eqn:E2; [|exfalso; apply C2; split; [auto|split; [intros [? ?]; discriminate|auto]]].
    split; auto. split; auto. split; auto. destruct strict eqn:Est; auto. exfalso. now apply (Hs eq_refl a Ha). }
  split.
  - apply NoDup_rev in T1. rewrite <- (rev_involutive (L ++ [x])). apply NoDup_rev.
    rewrite rev_app_distr. simpl. constructor; auto. now rewrite <- in_rev.
  - intros a Ha. apply in_app_iff in Ha. destruct Ha as [Ha|[<-|[]]]; eauto.
  - intros a c Ha Hc' Hn Hsh. apply in_app_iff in Ha, Hc'.
    destruct Ha as [Ha|[<-|[]]], Hc' as [Hc'|[<-|[]]].
    + eauto.
    + now apply HX.
    + destruct (HX c Hc') as (A & B & C & D); [apply share_byte_sym; exact Hsh|]. auto.
    + congruence.
Qed.

Lemma tab_remove l1 x l2 :
  tab_ok (l1 ++ x :: l2) -> tab_ok (l1 ++ l2) /\ ~ In x (l1 ++ l2)
  /\ (forall a, In a (l1 ++ l2) -> rshare a x ->
        lk_handle a <> lk_handle x /\ lk_shared a = true /\ lk_shared x = true /\ strict = false).
Proof.
  intros [T1 T2 T3].
  assert (forall a, In a (l1 ++ l2) -> In a (l1 ++ x :: l2)) as Hsub.
  { intros a. rewrite !in_app_iff. simpl. tauto. }
  assert (~ In x (l1 ++ l2)) as Hnx by now apply NoDup_remove_2.
  split; [|split].
  - split; [now apply NoDup_remove_1 in T1|eauto|eauto].
  - auto.
  - intros a Ha Hs. apply T3; auto; [apply in_app_iff; right; now left|congruence].
Qed.

Lemma tab_filter f L : tab_ok L -> tab_ok (filter f L).
Proof.
  intros [T1 T2 T3]. split.
  - now apply NoDup_filter.
  - intros a Ha. apply filter_In in Ha. apply T2; tauto.
  - intros a b Ha Hb. apply filter_In in Ha, Hb. apply T3; tauto.
Qed.

(** ** The invariant of a thread *)
Definition req_ok (P : proc) (q : req) : Prop :=
  good_len (q_len q) = true /\ exists st, p_streams P (q_fd q) = Some st /\ st_uid st = q_uid q.

Record prog_ok (p : Z) (P : proc) (g : prog) : Prop := {
  po_fd : (g_unlocks g <> [] \/ g_fin g = FAdd \/ g_fin g = FExt) ->
      p_fds P (g_fd g) = Some (g_uid g) /\ p_ext P (g_fd g) = false
      /\ ~ In (g_fd g) (ED p (p_reg P) (g_uid g)) /\ ~ In (g_fd g) (g_closes g);
  po_dead : (g_fin g = FAdd \/ g_fin g = FExt) -> p_streams P (g_fd g) = None /\ 0 < g_fd g;
  po_live : g_fin g = FUnlock -> exists st, p_streams P (g_fd g) = Some st /\ st_uid st = g_uid g;
  po_late : (g_fin g = FDel \/ g_fin g = FNone) -> g_unlocks g = [];
  po_cl_nodup : NoDup (g_closes g);
  po_cl : forall c, In c (g_closes g) ->
      p_fds P c = Some (g_uid g) /\ p_streams P c = None /\ p_ext P c = false
      /\ ~ In c (ED p (p_reg P) (g_uid g));
  po_nolock : g_closes g <> [] -> EL p (p_reg P) (g_uid g) = [];
  po_rng : forall lo hi lk b, In (lo, hi) (g_unlocks g) -> In lk (EL p (p_reg P) (g_uid g)) ->
      rbyte lk b -> in_range lo hi b -> lk_shared lk = true /\ strict = false }.

Definition thr_ok (p : Z) (P : proc) (H : list hold) (c : pc) : Prop :=
  match c with
  | PIdle => True
  | PLockReg q | PLockBusy q => req_ok P q
  | PLockWait q _ => req_ok P q
  | PLockKern q | PLockFail q =>
      req_ok P q /\ In (q_rec q) (EL p (p_reg P) (q_uid q)) /\ ~ In (mkHold p (q_uid q) (q_rec q)) H
  | PProg g => prog_ok p P g
  end.

Definition inflight (c : pc) (u : uid) (lk : lockrec) : Prop :=
  match c with PLockKern q | PLockFail q => q_uid q = u /\ q_rec q = lk | _ => False end.

(** [x]: file whose waiters are about to be notified. *)
Record pinv (x : option uid) (p : Z) (P : proc) (H : list hold) (K : klocks) : Prop := {
  i_tab : forall u, tab_ok (EL p (p_reg P) u);
  i_own : forall u lk, In lk (EL p (p_reg P) u) ->
      exists st, p_streams P (lk_handle lk) = Some st /\ st_uid st = u;
  i_str : forall fd st, p_streams P fd = Some st ->
      p_fds P fd = Some (st_uid st) /\ p_ext P fd = false /\ 0 < fd;
  i_data : forall u fd, In fd (ED p (p_reg P) u) ->
      p_fds P fd = Some u /\ p_streams P fd = None /\ p_ext P fd = false;
  i_data_nodup : forall u, NoDup (ED p (p_reg P) u);
  i_ext : forall fd, p_ext P fd = true -> p_fds P fd <> None;
  i_thr : forall t c, nth_error (p_thr P) t = Some c -> thr_ok p P H c;
  i_mutex : forall t g, nth_error (p_thr P) t = Some (PProg g) -> p_mutex P = MHeld t;
  i_held : forall t, p_mutex P = MHeld t -> exists g, nth_error (p_thr P) t = Some (PProg g);
  i_busy : forall t1 t2 c1 c2 f, t1 <> t2 ->
      nth_error (p_thr P) t1 = Some c1 -> nth_error (p_thr P) t2 = Some c2 ->
      busy_fd c1 = Some f -> busy_fd c2 <> Some f;
  i_wait : forall u, EW p (p_reg P) u = count_wait u (p_thr P);
  i_conf : forall u lk, In lk (EL p (p_reg P) u) ->
      In (mkHold p u lk) H \/ exists t c, nth_error (p_thr P) t = Some c /\ inflight c u lk;
  i_hold : forall u lk, In (mkHold p u lk) H ->
      In lk (EL p (p_reg P) u)
      /\ forall b, rbyte lk b -> (lk_shared lk = false \/ strict = true) -> kholds K p u (lk_shared lk) b;
  i_kern : forall u sh b, kholds K p u sh b ->
      (exists lk, In (mkHold p u lk) H /\ rbyte lk b /\ lk_shared lk = sh)
      \/ (exists t g lo hi, nth_error (p_thr P) t = Some (PProg g) /\ g_uid g = u
            /\ In (lo, hi) (g_unlocks g) /\ in_range lo hi b);
  i_block : polite = true -> forall t q, nth_error (p_thr P) t = Some (PLockWait q false) ->
      x <> Some (q_uid q) ->
      exists lk, In lk (EL p (p_reg P) (q_uid q)) /\ conflicts_other lk (q_fd q) (q_off q) (q_end q) (q_shared q);
  i_fds : p_child P = false -> forall fd u, p_fds P fd = Some u ->
      p_ext P fd = true \/ (exists st, p_streams P fd = Some st) \/ In fd (ED p (p_reg P) u)
      \/ (exists t g, nth_error (p_thr P) t = Some (PProg g)
            /\ (In fd (g_closes g) \/ (g_fd g = fd /\ (g_fin g = FAdd \/ g_fin g = FExt))));
  i_closefd : owning = true -> forall fd st, p_streams P fd = Some st -> st_closefd st = true;
  i_noext : owning = true -> forall t g, nth_error (p_thr P) t = Some (PProg g) -> g_fin g <> FExt;
  i_pend : owning = true -> forall u, ED p (p_reg P) u <> [] ->
      (exists fd st, p_streams P fd = Some st /\ st_uid st = u)
      \/ (exists t g, nth_error (p_thr P) t = Some (PProg g) /\ g_uid g = u
            /\ (g_purge g = true \/ g_fin g = FAdd)) }.

Record sinv (s : sys) : Prop := {
  s_live : forall p P, s_procs s p = Some P -> pinv None p P (s_holds s) (s_kern s);
  s_dead_h : forall h, In h (s_holds s) -> s_procs s (h_pid h) <> None;
  s_dead_k : forall p u sh b, kholds (s_kern s) p u sh b -> s_procs s p <> None;
  s_compat : forall p1 p2 u sh1 sh2 b, p1 <> p2 ->
      kholds (s_kern s) p1 u sh1 b -> kholds (s_kern s) p2 u sh2 b -> sh1 = true /\ sh2 = true }.

(** Only the process's own holds and kernel locks matter. *)
Lemma pinv_frame x p P H H' K K' :
  (forall u lk, In (mkHold p u lk) H <-> In (mkHold p u lk) H') ->
  (forall u sh b, kholds K p u sh b <-> kholds K' p u sh b) ->
  pinv x p P H K -> pinv x p P H' K'.
Proof.
  intros EH EK I. destruct I. split; auto.
  - intros t c Ht. specialize (i_thr0 t c Ht). destruct c; simpl in *; auto; rewrite <- EH; auto.
  - intros u lk Hin. destruct (i_conf0 u lk Hin); auto. left. now apply EH.
  - intros u lk Hin. apply EH in Hin. destruct (i_hold0 u lk Hin) as [A B]. split; auto.
    intros b Hb Hs. apply EK. auto.
  - intros u sh b Hk. apply EK in Hk. destruct (i_kern0 u sh b Hk) as [(lk & Hin & Hb)|X]; auto.
    left. exists lk. split; auto. now apply EH.
Qed.

Lemma notify_pinv p P H K u :
  pinv (Some u) p P H K -> pinv None p (with_thr P (notify_all u (p_thr P))) H K.
Proof.
  intros I. destruct I.
  assert (forall t c, nth_error (notify_all u (p_thr P)) t = Some c ->
    exists c0, nth_error (p_thr P) t = Some c0 /\ c = notify1 u c0) as Hinv.
  { intros t c. rewrite nth_notify. destruct (nth_error (p_thr P) t) as [c0|]; simpl; [|discriminate].
    intros [= <-]. eauto. }
  assert (forall t g, nth_error (notify_all u (p_thr P)) t = Some (PProg g) <-> nth_error (p_thr P) t = Some (PProg g)) as Hprog.
  { intros t g. rewrite nth_notify. destruct (nth_error (p_thr P) t) as [c0|]; simpl; [|tauto].
    destruct c0; simpl; try (split; congruence). destruct (uid_eqb (q_uid q) u); split; congruence. }
  assert (forall c, busy_fd (notify1 u c) = busy_fd c) as Hbusy.
  { intros []; simpl; auto. destruct (uid_eqb (q_uid q) u); auto. }
  split; cbn [p_reg p_mutex p_fds p_streams p_ext p_thr p_child with_thr]; auto.
  - intros t c Ht. destruct (Hinv t c Ht) as (c0 & H0 & ->). specialize (i_thr0 t c0 H0).
    destruct c0; simpl in *; auto.
    + destruct (uid_eqb (q_uid q) u); simpl; auto.
    + destruct i_thr0. split; auto.
  - intros t g. rewrite Hprog. apply i_mutex0.
  - intros t Ht. destruct (i_held0 t Ht) as (g & Hg). exists g. now apply Hprog.
  - intros t1 t2 c1 c2 f Hn H1 H2. destruct (Hinv _ _ H1) as (d1 & E1 & ->), (Hinv _ _ H2) as (d2 & E2 & ->).
    rewrite !Hbusy. eapply i_busy0; eauto.
  - intros v. rewrite count_wait_notify. auto.
  - intros v lk Hin. destruct (i_conf0 v lk Hin) as [|(t & c & Hc & Hf)]; auto.
    right. exists t, (notify1 u c). split; [rewrite nth_notify, Hc; auto|]. destruct c; simpl in *; auto; tauto.
  - intros v sh b Hk. destruct (i_kern0 v sh b Hk) as [|(t & g & lo & hi & X & Y)]; auto.
    right. exists t, g, lo, hi. rewrite Hprog. auto.
  - intros Hp t q Ht _. destruct (Hinv _ _ Ht) as (c0 & H0 & E). destruct c0; simpl in E; try discriminate.
    destruct (uid_eqb (q_uid q0) u) eqn:Eu; [discriminate|]. injection E as <- <-.
    apply (i_block0 Hp _ _ H0). apply uid_eqb_neq in Eu. congruence.
  - intros Hc fd v Hfd. destruct (i_fds0 Hc fd v Hfd) as [|[|[|(t & g & X & Y)]]]; auto.
    right; right; right. exists t, g. rewrite Hprog. auto.
  - intros Ho t g. rewrite Hprog. exact (i_noext0 Ho t g).
  - intros Ho v Hd. destruct (i_pend0 Ho v Hd) as [|(t & g & X & Y)]; auto.
    right. exists t, g. rewrite Hprog. auto.
Qed.

Lemma pinv_none p P H K : pinv None p P H K -> forall x, pinv x p P H K.
Proof.
  intros I x. destruct I. split; auto. intros Hp t q Ht _. apply i_block0 with t; auto. discriminate.
Qed.

(** A registry with the same visible content. *)
Lemma pinv_same_views x p P H K r' :
  same_views p (p_reg P) r' -> pinv x p P H K -> pinv x p (with_reg P r') H K.
Proof.
  intros S I. destruct I.
  assert (forall v, EL p r' v = EL p (p_reg P) v) as SL by (intros v; apply S).
  assert (forall v, ED p r' v = ED p (p_reg P) v) as SD by (intros v; apply S).
  assert (forall v, EW p r' v = EW p (p_reg P) v) as SW by (intros v; apply S).
  split; cbn [p_reg p_mutex p_fds p_streams p_ext p_thr p_child with_reg]; auto;
    try (intros; rewrite ?SL, ?SD, ?SW in *; eauto; fail).
  - intros t c Ht. specialize (i_thr0 t c Ht). destruct c;
      try exact i_thr0; try (unfold thr_ok in *; cbn [p_reg with_reg]; rewrite SL; exact i_thr0).
    destruct i_thr0. split; cbn [p_reg p_mutex p_fds p_streams p_ext p_thr p_child with_reg]; rewrite ?SL, ?SD; auto.
Qed.

(** Changing one thread between states that do not involve the lock tables. *)
Lemma pinv_set_pc_reg x p P H K t c c' r' :
  pinv x p P H K ->
  nth_error (p_thr P) t = Some c ->
  (forall v, EL p r' v = EL p (p_reg P) v) -> (forall v, ED p r' v = ED p (p_reg P) v) ->
  (forall v, EW p r' v = EW p (p_reg P) v - b2z (waits_on v c) + b2z (waits_on v c')) ->
  (forall g, c <> PProg g) -> (forall g, c' <> PProg g) ->
  thr_ok p P H c' ->
  (busy_fd c' = busy_fd c \/ forall f, busy_fd c' = Some f -> is_busy P f = false) ->
  (forall u lk, inflight c u lk -> inflight c' u lk) ->
  (forall q, c' = PLockWait q false ->
     exists lk, In lk (EL p (p_reg P) (q_uid q)) /\ conflicts_other lk (q_fd q) (q_off q) (q_end q) (q_shared q)) ->
  pinv x p (set_pc (with_reg P r') t c') H K.
Proof.
  intros I Ht SL SD SW Hc Hc' Hok Hb Hf Hnw. destruct I.
  assert (forall t' g, nth_error (nth_update (p_thr P) t c') t' = Some (PProg g) <-> nth_error (p_thr P) t' = Some (PProg g)) as Hprog.
  { intros t' g. destruct (Nat.eq_dec t t') as [<-|Hn].
    - rewrite (nth_update_same _ _ _ _ Ht), Ht. split; intros [= E]; exfalso; [eapply Hc'; eauto|eapply Hc; eauto].
    - rewrite nth_update_other by auto. tauto. }
  assert (forall d, thr_ok p P H d -> thr_ok p (set_pc (with_reg P r') t c') H d) as Htr.
  { intros d Hd. destruct d; try exact Hd;
      try (unfold thr_ok in *; cbn [p_reg with_reg set_pc with_thr]; rewrite SL; exact Hd).
    destruct Hd. split; cbn [p_reg p_mutex p_fds p_streams p_ext p_thr p_child with_reg with_thr set_pc]; rewrite ?SL, ?SD; auto. }
  split; cbn [p_reg p_mutex p_fds p_streams p_ext p_thr p_child with_thr with_reg set_pc]; auto;
    try (intros; rewrite ?SL, ?SD in *; eauto; fail).
  - intros t' d Hd. apply Htr. apply nth_update_inv in Hd. destruct Hd as [(-> & -> & _)|(Hn & Hd)]; eauto.
  - intros t' g. rewrite Hprog. apply i_mutex0.
  - intros t' Hm. destruct (i_held0 t' Hm) as (g & Hg). exists g. now apply Hprog.
  - assert (forall t' d f, t' <> t -> nth_error (p_thr P) t' = Some d -> busy_fd d = Some f -> busy_fd c' <> Some f) as HX.
    { intros t' d f Hn Hd Hbd E. destruct Hb as [Hb|Hb].
      - rewrite Hb in E. exact (i_busy0 t' t d c f Hn Hd Ht Hbd E).
      - specialize (Hb f E). unfold is_busy in Hb.
        assert (existsb (fun c0 : pc => match busy_fd c0 with Some f0 => f0 =? f | None => false end) (p_thr P) = true).
        { apply existsb_exists. exists d. split; [eapply nth_error_In; eauto|]. rewrite Hbd. apply Z.eqb_refl. }
        congruence. }
    intros t1 t2 c1 c2 f Hn H1 H2 B1 B2. apply nth_update_inv in H1, H2.
    destruct H1 as [(-> & -> & _)|(N1 & H1)], H2 as [(-> & -> & _)|(N2 & H2)].
    + congruence.
    + exact (HX t2 c2 f N2 H2 B2 B1).
    + exact (HX t1 c1 f N1 H1 B1 B2).
    + exact (i_busy0 t1 t2 c1 c2 f Hn H1 H2 B1 B2).
  - intros u. rewrite (count_wait_update _ _ _ _ _ Ht), SW, i_wait0. lia.
  - intros u lk Hin. rewrite SL in Hin. destruct (i_conf0 u lk Hin) as [|(t' & d & Hd & Hfl)]; auto.
    right. destruct (Nat.eq_dec t t') as [<-|Hn].
    + exists t, c'. split; [eapply nth_update_same; eauto|]. apply Hf. congruence.
    + exists t', d. split; auto. rewrite nth_update_other; auto.
  - intros u sh b Hk. destruct (i_kern0 u sh b Hk) as [|(t' & g & lo & hi & X & Y)]; auto.
    right. exists t', g, lo, hi. rewrite Hprog. auto.
  - intros Hp t' q Hd Hx. rewrite SL. apply nth_update_inv in Hd. destruct Hd as [(-> & E & _)|(Hn & Hd)]; eauto.
  - intros Hch fd v Hfd. rewrite SD. destruct (i_fds0 Hch fd v Hfd) as [|[|[|(t' & g & X & Y)]]]; auto.
    right; right; right. exists t', g. rewrite Hprog. auto.
  - intros Ho t' g. rewrite Hprog. exact (i_noext0 Ho t' g).
  - intros Ho v Hd. rewrite SD in Hd. destruct (i_pend0 Ho v Hd) as [|(t' & g & X & Y)]; auto.
    right. exists t', g. rewrite Hprog. auto.
Qed.

Lemma with_reg_id P : with_reg P (p_reg P) = P.
Proof. destruct P; reflexivity. Qed.

Lemma pinv_set_pc x p P H K t c c' :
  pinv x p P H K ->
  nth_error (p_thr P) t = Some c ->
  (forall g, c <> PProg g) -> (forall g, c' <> PProg g) ->
  (forall u, waits_on u c = waits_on u c') ->
  thr_ok p P H c' ->
  (busy_fd c' = busy_fd c \/ forall f, busy_fd c' = Some f -> is_busy P f = false) ->
  (forall u lk, inflight c u lk -> inflight c' u lk) ->
  (forall q, c' <> PLockWait q false) ->
  pinv x p (set_pc P t c') H K.
Proof.
  intros I Ht Hc Hc' Hw Hok Hb Hf Hnw. rewrite <- (with_reg_id P) at 1.
  eapply pinv_set_pc_reg; eauto.
  - intros v. rewrite Hw. lia.
  - intros q E. exfalso. eapply Hnw; eauto.
Qed.

(** ** Register *)
Lemma good_range off len : good_len len = true -> exists b, in_range off (range_end off len) b.
Proof.
  unfold good_len, in_range, range_end. intros Hl. exists off. destruct len as [l|]; [|lia].
  destruct (l =? 0) eqn:E; lia.
Qed.

Lemma is_busy_false P f t c : is_busy P f = false -> nth_error (p_thr P) t = Some c -> busy_fd c <> Some f.
Proof.
  unfold is_busy. intros Hb Hn E.
  assert (existsb (fun c0 : pc => match busy_fd c0 with Some f0 => f0 =? f | None => false end) (p_thr P) = true).
  { apply existsb_exists. exists c. split; [eapply nth_error_In; eauto|]. rewrite E. apply Z.eqb_refl. }
  congruence.
Qed.

Lemma no_prog x p P H K : pinv x p P H K -> mutex_free P = true ->
  forall t g, nth_error (p_thr P) t <> Some (PProg g).
Proof.
  intros I Hm t g E. apply (i_mutex _ _ _ _ _ I) in E. unfold mutex_free in Hm. rewrite E in Hm. discriminate.
Qed.

Lemma register_granted p P H K t q r' :
  pinv None p P H K ->
  nth_error (p_thr P) t = Some (PLockReg q) -> mutex_free P = true ->
  register_once true p (p_reg P) (q_uid q) (q_fd q) (q_len q) (q_off q) (q_shared q) = (Ok true, r') ->
  (strict = true -> forall a, In a (EL p (p_reg P) (q_uid q)) -> lk_handle a <> q_fd q ->
      lk_shared a = true -> q_shared q = true -> ~ rshare a (q_rec q)) ->
  pinv None p (set_pc (with_reg P r') t (PLockKern q)) H K.
Proof.
  intros I Ht Hm E Hs. pose proof (no_prog _ _ _ _ _ I Hm) as Hnp.
  destruct (register_eff _ _ _ _ _ _ _ _ _ E) as (_ & SD & SW & SL & _ & C).
  destruct C as [(_ & SLu & Hfree)|[(X & _)|(X & _)]]; try discriminate.
  change (mkLock (q_fd q) (q_shared q) (q_off q) (range_end (q_off q) (q_len q))) with (q_rec q) in SLu.
  set (u := q_uid q) in *. set (rec := q_rec q) in *.
  destruct I.
  assert (thr_ok p P H (PLockReg q)) as Hq by eauto.
  destruct Hq as (Hlen & st & Hst & Hstu).
  assert (exists b, rbyte rec b) as Hne by now apply good_range.
  assert (forall v a, In a (EL p (p_reg P) v) -> In a (EL p r' v)) as Mono.
  { intros v a Ha. destruct (uid_dec v u) as [->|Hn]; [rewrite SLu; apply in_app_iff; auto|rewrite SL; auto]. }
  assert (forall v a, In a (EL p r' v) -> In a (EL p (p_reg P) v) \/ (v = u /\ a = rec)) as Inv.
  { intros v a Ha. destruct (uid_dec v u) as [->|Hn]; [|rewrite SL in Ha; auto].
    rewrite SLu in Ha. apply in_app_iff in Ha. destruct Ha as [|[<-|[]]]; auto. }
  assert (~ In rec (EL p (p_reg P) u)) as Hnew.
  { intros X. destruct (Hfree _ X) as [X1 _]. apply X1. destruct Hne as (b & Hb).
    split; [reflexivity|]. exists b; split; exact Hb. }
  assert (forall t' c, t' <> t -> nth_error (p_thr P) t' = Some c -> thr_ok p (set_pc (with_reg P r') t (PLockKern q)) H c) as Htr.
  { intros t' c _ Hc. pose proof (i_thr0 t' c Hc) as Ho. destruct c; try exact Ho.
    - destruct Ho as (A & B & C). split; [exact A|]. split; [apply Mono; exact B|exact C].
    - destruct Ho as (A & B & C). split; [exact A|]. split; [apply Mono; exact B|exact C].
    - exfalso. eapply Hnp; eauto. }
  assert (forall t' g, nth_error (nth_update (p_thr P) t (PLockKern q)) t' <> Some (PProg g)) as Hnp'.
  { intros t' g X. apply nth_update_inv in X. destruct X as [(_ & X & _)|(_ & X)]; [discriminate|]. eapply Hnp; eauto. }
  split; cbn [p_reg p_mutex p_fds p_streams p_ext p_thr p_child with_thr with_reg set_pc]; auto;
    try (intros; rewrite ?SD in *; eauto; fail).
  - intros v. destruct (uid_dec v u) as [->|Hn]; [|rewrite SL; auto].
    rewrite SLu. apply tab_app; auto.
  - intros v lk Hin. destruct (Inv v lk Hin) as [|[-> ->]]; eauto.
  - intros t' c Hc. apply nth_update_inv in Hc. destruct Hc as [(-> & -> & _)|(Hn & Hc)]; eauto.
    split; [split; [exact Hlen|exists st; auto]|]. split.
    + cbn [p_reg with_reg with_thr set_pc]. fold u. rewrite SLu. apply in_app_iff. right. now left.
    + intros X. apply i_hold0 in X. apply Hnew. apply X.
  - intros t' g X. exfalso. eapply Hnp'; eauto.
  - intros t' X. exfalso. unfold mutex_free in Hm. rewrite X in Hm. discriminate.
  - intros t1 t2 c1 c2 f Hn H1 H2 B1 B2. apply nth_update_inv in H1, H2.
    destruct H1 as [(-> & -> & _)|(N1 & H1)], H2 as [(-> & -> & _)|(N2 & H2)].
    + congruence.
    + exact (i_busy0 t t2 _ c2 f Hn Ht H2 B1 B2).
    + exact (i_busy0 t1 t c1 _ f Hn H1 Ht B1 B2).
    + exact (i_busy0 t1 t2 c1 c2 f Hn H1 H2 B1 B2).
  - intros v. rewrite (count_wait_update _ _ _ _ _ Ht), SW, i_wait0. simpl. lia.
  - intros v lk Hin. destruct (Inv v lk Hin) as [Hin'|[-> ->]].
    + destruct (i_conf0 v lk Hin') as [|(t' & d & Hd & Hfl)]; auto.
      right. exists t', d. split; auto. rewrite nth_update_other; auto. intros <-.
      rewrite Ht in Hd. injection Hd as <-. exact Hfl.
    + right. exists t, (PLockKern q). split; [eapply nth_update_same; eauto|]. simpl; auto.
  - intros v lk Hin. destruct (i_hold0 v lk Hin) as [A B]. split; auto.
  - intros v sh b Hk. destruct (i_kern0 v sh b Hk) as [|(t' & g & lo & hi & X & Y)]; auto.
    exfalso. eapply Hnp; eauto.
  - intros Hp t' q' Hd Hx. apply nth_update_inv in Hd. destruct Hd as [(-> & X & _)|(Hn & Hd)]; [discriminate|].
    destruct (i_block0 Hp t' q' Hd Hx) as (lk & A & B). eauto.
  - intros Hch fd v Hfd. rewrite SD. destruct (i_fds0 Hch fd v Hfd) as [|[|[|(t' & g & X & Y)]]]; auto.
    exfalso. eapply Hnp; eauto.
  - intros Ho t' g X. exfalso. eapply Hnp'; eauto.
  - intros Ho v Hd. rewrite SD in Hd. destruct (i_pend0 Ho v Hd) as [|(t' & g & X & Y)]; auto.
    exfalso. eapply Hnp; eauto.
Qed.

End INV.
