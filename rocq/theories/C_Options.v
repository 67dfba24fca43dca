(** Final theorems about options: C40. *)
From Coq Require Import ZArith String List Bool Arith Lia.
From Verif Require Import M_Base M_Modes M_Registry M_Kernel M_World M_Raw M_Open M_Options S_Options.
Import ListNotations.
Open Scope nat_scope.

Lemma dget_dset d k v k' : dget (dset d k v) k' = if String.eqb k k' then Some v else dget d k'.
Proof.
  induction d as [|(a, b) r IH]; cbn.
  - reflexivity.
  - destruct (String.eqb_spec a k) as [->|N]; cbn.
    + destruct (String.eqb_spec k k'); reflexivity.
    + rewrite IH. destruct (String.eqb_spec a k') as [->|]; [|reflexivity].
      destruct (String.eqb_spec k k') as [->|]; [congruence|reflexivity].
Qed.
Lemma dget_dupdate o : forall d k, NoDup (map fst o) ->
  (forall v, In (k, v) o -> dget (dupdate d o) k = Some v) /\ (~ In k (map fst o) -> dget (dupdate d o) k = dget d k).
Proof.
  unfold dupdate. induction o as [|(a, b) r IH]; intros d k N; cbn [fold_left map fst snd]; [split; [intros v []|auto]|].
  inversion N; subst. destruct (IH (dset d a b) k H2) as (A & B). split.
  - intros v [E|E].
    + injection E as -> ->. rewrite B by auto. rewrite dget_dset, String.eqb_refl. reflexivity.
    + now apply A.
  - intros E. rewrite B by (intros X; apply E; now right). rewrite dget_dset.
    destruct (String.eqb_spec a k) as [->|]; [|reflexivity]. destruct E. now left.
Qed.
Lemma keys_dset d k v : In k (map fst d) -> map fst (dset d k v) = map fst d.
Proof.
  induction d as [|(a, b) r IH]; cbn; [easy|]. intros H. destruct (String.eqb_spec a k) as [->|N]; [reflexivity|].
  cbn. f_equal. apply IH. destruct H; [congruence|auto].
Qed.
Lemma keys_dupdate o : forall d, (forall k, In k (map fst o) -> In k (map fst d)) -> map fst (dupdate d o) = map fst d.
Proof.
  unfold dupdate. induction o as [|(a, b) r IH]; intros d H; cbn [fold_left]; [reflexivity|].
  rewrite IH.
  - apply keys_dset, H. now left.
  - cbn [fst snd]. rewrite keys_dset by (apply H; now left). intros k Hk. apply H. now right.
Qed.

(** The names of the global options never change. *)
Definition sane (s : ostate) : Prop := map fst (deref s 0) = [enforced_key; spinlock_key] /\ h_dicts s <> [].
Lemma known_iff s k : sane s -> existsb (String.eqb k) (map fst (deref s 0)) = true <-> known k.
Proof.
  intros (S & _). rewrite S. rewrite existsb_exists. unfold known. split.
  - intros (x & [<-|[<-|[]]] & E); apply String.eqb_eq in E; auto.
  - intros [->| ->]; eexists; split; [now left|reflexivity|right; now left|reflexivity].
Qed.
Lemma deref_assign s a d b : deref (assign s a d) b = if Nat.eqb a b then (if Nat.ltb b (length (h_dicts s)) then d else []) else deref s b.
Proof.
  unfold deref, assign. cbn. generalize (h_dicts s) as l. revert a b.
  induction a as [|a IH]; intros b l; destruct l as [|x l]; destruct b as [|b]; cbn; try reflexivity.
  - destruct (Nat.eqb a b); reflexivity.
  - rewrite IH. reflexivity.
Qed.
Lemma length_assign s a d : length (h_dicts (assign s a d)) = length (h_dicts s).
Proof. unfold assign. cbn. generalize (h_dicts s). induction a as [|a IH]; intros [|x l]; cbn; auto. Qed.
Lemma nonempty_length s : h_dicts s <> [] <-> 0 < length (h_dicts s).
Proof. destruct (h_dicts s); cbn; split; intros; [congruence|lia|lia|discriminate]. Qed.

Lemma set_cases o s : sane s ->
  (exists k, In k (map fst o) /\ ~ known k) /\ set_rsfile_options o s = (Err EValue, s)
  \/ (forall k, In k (map fst o) -> known k) /\ set_rsfile_options o s = (Ok tt, assign s 0 (dupdate (deref s 0) o)).
Proof.
  intros S. unfold set_rsfile_options.
  destruct (forallb (fun k => existsb (String.eqb k) (map fst (deref s 0))) (map fst o)) eqn:E.
  - right. rewrite forallb_forall in E. split; [|reflexivity]. intros k Hk. apply (known_iff s k S). now apply E.
  - left. split; [|reflexivity].
    assert (X : ~ forall k, In k (map fst o) -> existsb (String.eqb k) (map fst (deref s 0)) = true).
    { rewrite <- forallb_forall. congruence. }
    clear E. induction (map fst o) as [|a l IH]; [destruct X; intros k []|].
    destruct (existsb (String.eqb a) (map fst (deref s 0))) eqn:Ea.
    + destruct IH as (k & A & B); [|exists k; split; [now right|auto]].
      intros F. apply X. intros k [<-|Hk]; auto.
    + exists a. split; [now left|]. intros F. apply (known_iff s a S) in F. congruence.
Qed.
Lemma sane_get s k : sane s -> known k -> exists v, dget (deref s 0) k = Some v.
Proof.
  intros (S & _). destruct (deref s 0) as [|(a, x) [|(b, y) [|]]]; try discriminate S. injection S as -> ->.
  intros [->| ->]; cbn; eauto.
Qed.
Lemma orun1_sane s x : honest x -> sane s -> sane (orun1 s x).
Proof.
  intros H S. pose proof S as (S1 & S2). pose proof (proj1 (nonempty_length s) S2) as S3. destruct x as [o| | |a k v|a k]; cbn [orun1 honest] in *.
  - destruct (set_cases o s S) as [(_ & ->)|(K & ->)]; [exact S|]. cbn [snd]. split.
    + rewrite deref_assign. cbn [Nat.eqb]. destruct (Nat.ltb_spec 0 (length (h_dicts s))); [|lia].
      rewrite keys_dupdate; [exact S1|]. intros k Hk. rewrite S1. destruct (K k Hk) as [->| ->]; cbn; auto.
    + apply nonempty_length. now rewrite length_assign.
  - cbn. split; [|destruct (h_dicts s); discriminate]. unfold deref in *. cbn. destruct (h_dicts s); [cbn in S3; lia|exact S1].
  - unfold create_stream. destruct (dget _ _); [|exact S]. destruct (dget _ _); exact S.
  - split; [|apply nonempty_length; now rewrite length_assign]. rewrite deref_assign.
    destruct (Nat.eqb_spec a 0); [congruence|exact S1].
  - split; [|apply nonempty_length; now rewrite length_assign]. rewrite deref_assign.
    destruct (Nat.eqb_spec a 0); [congruence|exact S1].
Qed.
Lemma orun_sane l : forall s, Forall honest l -> sane s -> sane (orun s l).
Proof.
  induction l as [|x l IH]; intros s H S; [exact S|]. inversion H; subst. apply IH; auto. now apply orun1_sane.
Qed.
Lemma sane_initial : sane initial_options.
Proof. split; [reflexivity|discriminate]. Qed.

(** States that a program reaches. *)
Definition reachable (s : ostate) : Prop := exists l, Forall honest l /\ s = orun initial_options l.
Lemma reachable_sane s : reachable s -> sane s.
Proof. intros (l & H & ->). apply orun_sane; auto using sane_initial. Qed.

(** set_rsfile_options with an unknown key raises ValueError and changes nothing at all. *)
Theorem C40_unknown_option : forall s o k, reachable s -> In k (map fst o) -> ~ known k ->
  set_rsfile_options o s = (Err EValue, s).
Proof.
  intros s o k R Hk Nk. destruct (set_cases o s (reachable_sane s R)) as [(_ & E)|(K & _)]; [exact E|]. destruct Nk. now apply K.
Qed.
(** Otherwise it succeeds, and exactly the given keys change. *)
Theorem C40_set_options : forall s o, reachable s -> NoDup (map fst o) -> (forall k, In k (map fst o) -> known k) ->
  exists s', set_rsfile_options o s = (Ok tt, s')
    /\ (forall k v, In (k, v) o -> in_force s' k = Some v)
    /\ (forall k, ~ In k (map fst o) -> in_force s' k = in_force s k).
Proof.
  intros s o R N K. pose proof (reachable_sane s R) as S.
  destruct (set_cases o s S) as [((k & Hk & Nk) & _)|(_ & ->)]; [destruct Nk; auto|].
  eexists. split; [reflexivity|]. unfold in_force. rewrite deref_assign. cbn [Nat.eqb].
  destruct S as (_ & S2). apply nonempty_length in S2. destruct (Nat.ltb_spec 0 (length (h_dicts s))); [|lia].
  split; intros; now apply dget_dupdate.
Qed.
(** Nothing but set_rsfile_options changes the options in force; in particular what a program does to the
    dictionaries it was given does not. *)
Theorem C40_only_set_changes : forall s x, reachable s -> honest x -> after_action (in_force s) x (in_force (orun1 s x)).
Proof.
  intros s x R H. pose proof (reachable_sane s R) as S. pose proof S as (S1 & S2). apply nonempty_length in S2.
  unfold in_force. destruct x as [o| | |a k v|a k]; cbn [after_action orun1 honest] in *.
  - destruct (set_cases o s S) as [(U & ->)|(K & ->)]; [right; auto|left]. split; [exact K|].
    cbn [snd]. rewrite deref_assign. cbn [Nat.eqb]. destruct (Nat.ltb_spec 0 (length (h_dicts s))); [|lia].
    split; intros; now apply dget_dupdate.
  - intros k. unfold get_rsfile_options, deref. cbn. now rewrite app_nth1.
  - intros k. unfold create_stream. destruct (dget _ enforced_key); [|reflexivity]. destruct (dget _ spinlock_key); reflexivity.
  - intros k'. rewrite deref_assign. now rewrite (proj2 (Nat.eqb_neq a 0)).
  - intros k'. rewrite deref_assign. now rewrite (proj2 (Nat.eqb_neq a 0)).
Qed.

(** get_rsfile_options returns a dictionary with the options in force, and that dictionary stays as it is whatever
    happens afterwards (new options, other snapshots modified), unless the program modifies that very dictionary. *)
Theorem C40_snapshot : forall s a s1 l, reachable s -> get_rsfile_options s = (Ok a, s1) ->
  Forall honest l -> Forall (fun x => ~ modifies a x) l ->
  forall k, dget (deref (orun s1 l) a) k = in_force s k.
Proof.
  intros s a s1 l R E H M k. injection E as <- <-.
  set (a := length (h_dicts s)) in *.
  pose proof (reachable_sane s R) as (S1 & S2). apply nonempty_length in S2.
  assert (G : forall l s', Forall honest l -> Forall (fun x => ~ modifies a x) l -> 0 < a < length (h_dicts s') ->
     deref (orun s' l) a = deref s' a).
  { clear -S2. induction l as [|x l IH]; intros s' H M L; [reflexivity|]. inversion H; subst. inversion M; subst.
    assert (X : deref (orun1 s' x) a = deref s' a /\ length (h_dicts s') <= length (h_dicts (orun1 s' x))).
    { destruct x as [o| | |b k v|b k]; cbn [orun1 modifies honest] in *.
      - unfold set_rsfile_options. destruct (forallb _ _); [|auto]. cbn [snd]. rewrite deref_assign, length_assign.
        destruct a; [lia|]. auto.
      - unfold get_rsfile_options, deref. cbn. rewrite app_nth1 by lia. rewrite app_length. split; [reflexivity|lia].
      - unfold create_stream. destruct (dget _ _); [|auto]. destruct (dget _ _); auto.
      - rewrite deref_assign, length_assign. now rewrite (proj2 (Nat.eqb_neq b a)).
      - rewrite deref_assign, length_assign. now rewrite (proj2 (Nat.eqb_neq b a)). }
    destruct X as (X1 & X2). change (orun s' (x :: l)) with (orun (orun1 s' x) l). rewrite IH; auto. lia. }
  rewrite G; auto.
  - unfold in_force, deref. cbn. rewrite app_nth2 by (unfold a; lia). unfold a. now rewrite Nat.sub_diag.
  - cbn. rewrite app_length. cbn. unfold a. lia.
Qed.

(** A new stream takes the options in force, and keeps them whatever happens afterwards. *)
Theorem C40_stream_options : forall s, reachable s ->
  exists n s1 e d, create_stream s = (Ok n, s1)
    /\ in_force s "enforced_locking_timeout_value"%string = Some e /\ in_force s "default_spinlock_delay"%string = Some d
    /\ forall l, nth_error (h_streams (orun s1 l)) n = Some (e, d).
Proof.
  intros s R. pose proof (reachable_sane s R) as S.
  destruct (sane_get s enforced_key S (or_introl eq_refl)) as (e & Ee). destruct (sane_get s spinlock_key S (or_intror eq_refl)) as (d & Ed).
  unfold create_stream. rewrite Ee, Ed. eexists _, _, e, d. split; [reflexivity|]. split; [exact Ee|]. split; [exact Ed|].
  intros l. set (n := length (h_streams s)).
  assert (G : forall l s', nth_error (h_streams s') n = Some (e, d) -> nth_error (h_streams (orun s' l)) n = Some (e, d)).
  { clear. induction l as [|x l IH]; intros s' H; [exact H|]. change (orun s' (x :: l)) with (orun (orun1 s' x) l). apply IH. destruct x as [o| | |b k v|b k]; cbn [orun1].
    - unfold set_rsfile_options. destruct (forallb _ _); exact H.
    - exact H.
    - unfold create_stream. destruct (dget _ _); [|exact H]. destruct (dget _ _); [|exact H]. cbn.
      rewrite nth_error_app1; [exact H|]. apply nth_error_Some. congruence.
    - exact H.
    - exact H. }
  apply G. cbn. rewrite nth_error_app2 by (unfold n; lia). unfold n. now rewrite Nat.sub_diag.
Qed.

(** The same in the model of files: the options of the world ([w_opts]) are those of the stream. *)
Lemma inner_create_opts f rk w r f1 w1 : inner_create_streams f rk w = (r, f1, w1) ->
  f_enforced f1 = f_enforced f /\ f_spin f1 = f_spin f.
Proof.
  unfold inner_create_streams. intros H.
  repeat match type of H with
  | context [match ?x with _ => _ end] => destruct x
  end; injection H as <- <- <-; auto.
Qed.
Theorem C40_raw_stream_takes_options : forall rk w f w', raw_open rk w = (Ok f, w') ->
  f_enforced f = opt_enforced (w_opts w) /\ f_spin f = opt_spin (w_opts w).
Proof.
  intros rk w f w' H. unfold raw_open in H. destruct (raw_init rk w) as [[[[]|e] f1] w1] eqn:Ei; [|discriminate].
  injection H as -> ->. unfold raw_init in Ei. destruct (init_checks rk); [|discriminate].
  destruct (inner_create_streams _ rk w) as [[r1 f1] w1] eqn:Ec. apply inner_create_opts in Ec. cbn [f_enforced f_spin] in Ec.
  destruct r1 as [[]|e]; [|discriminate]. destruct (sys_fstat (fd_of f1) w1) as [[[[u k] sz]|e] w2]; [|discriminate].
  destruct k; [|destruct (wraps rk); discriminate|].
  all: destruct (rk_append rk); [|injection Ei as <- <-; exact Ec].
  all: match type of Ei with context [raw_seek ?g ?a ?b ?y] => destruct (raw_seek g a b y) as [[z|e] w3] end;
    [injection Ei as <- <-; exact Ec|]; destruct e; try discriminate Ei; destruct (_ =? _)%Z; try discriminate Ei; injection Ei as <- <-; exact Ec.
Qed.

Example C40_example :
  let s1 := orun initial_options [OGet; OCreate; OSet [(spinlock_key, VNum 7)]; OStore 1 spinlock_key (VNum 9); OCreate; OSet [("x"%string, VNone)]] in
  (dget (deref s1 0) spinlock_key, dget (deref s1 1) spinlock_key, h_streams s1)
  = (Some (VNum 7), Some (VNum 9), [(VNone, VNum 100); (VNone, VNum 7)]).
Proof. reflexivity. Qed.
Example C40_example_reachable : reachable (orun initial_options [OGet; OSet [(spinlock_key, VNum 7)]; OStore 1 spinlock_key (VNum 9)]).
Proof.
  eexists. split; [|reflexivity]. repeat constructor; cbn; try easy.
Qed.

Print Assumptions C40_unknown_option.
Print Assumptions C40_set_options.
Print Assumptions C40_only_set_changes.
Print Assumptions C40_snapshot.
Print Assumptions C40_stream_options.
Print Assumptions C40_raw_stream_takes_options.
