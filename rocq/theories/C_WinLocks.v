(** C59, C60: locks on windows. *)
From Coq Require Import ZArith List Bool Lia.
From Verif Require Import M_Base M_Util M_Registry M_World M_WinLocks S_Locks S_WinLocks P_Registry P_Util C_Util.
Import ListNotations.
Open Scope Z_scope.

(** * Helpers *)
Definition of_h (h : Z) (k : wlock) : bool := wl_h k =? h.
Definition klen (length : option Z) : Z :=
  match length with None => 2 ^ 64 - 1 | Some l => if l =? 0 then 2 ^ 64 - 1 else l end.
Definition kl (h : Z) (x : wheld) : wlock := let '(sh, st, len) := x in mkWl h st (klen len) sh.
Definition rc (h : Z) (x : wheld) : lockrec := let '(sh, st, len) := x in mkLock h sh st (range_end st len).
Definition hfits (x : wheld) : Prop := let '(_, st, len) := x in fits len st.
Definition is_held (start : Z) (length : option Z) (x : wheld) : bool :=
  let '(_, st, len) := x in (st =? start) && same_length len length.

Lemma conv_words len off : fits len off -> exists lo hi olo ohi,
  win32_convert_file_range_arguments len (Some off) = Ok (lo, hi, olo, ohi)
  /\ double_dwords_to_pyint olo ohi 32 = off /\ double_dwords_to_pyint lo hi 32 = klen len.
Proof.
  intros [Ho Hl].
  assert (len = None \/ len = Some 0 \/ exists l, len = Some l /\ 0 < l < 2 ^ 64) as [H|[H|(l & -> & Hb)]].
  { destruct len as [l|]; auto. destruct (Z.eq_dec l 0) as [->|]; auto. right; right. exists l. split; auto. lia. }
  - destruct (C41_range_infinite len off (or_introl H) Ho) as (lo & hi & olo & ohi & E & _ & _ & _ & _ & E1 & E2).
    exists lo, hi, olo, ohi. rewrite !join_form by lia. subst len. split; [exact E|]. split; [exact E2|exact E1].
  - destruct (C41_range_infinite len off (or_intror H) Ho) as (lo & hi & olo & ohi & E & _ & _ & _ & _ & E1 & E2).
    exists lo, hi, olo, ohi. rewrite !join_form by lia. subst len. split; [exact E|]. split; [exact E2|exact E1].
  - destruct (C41_range_exact l off Hb Ho) as (lo & hi & olo & ohi & E & _ & _ & _ & _ & E1 & E2).
    exists lo, hi, olo, ohi. rewrite !join_form by lia. split; [exact E|]. split; [exact E2|].
    unfold klen. destruct (Z.eqb_spec l 0); lia.
Qed.
Lemma klen_pos len off : fits len off -> 0 < klen len < 2 ^ 64.
Proof. intros [_ H]. unfold klen. destruct len as [l|]; [destruct (Z.eqb_spec l 0)|]; lia. Qed.
Lemma same_length_klen a b : same_length a b = true -> klen a = klen b.
Proof.
  unfold same_length, klen. destruct a as [x|], b as [y|]; intros H; auto;
    [apply Z.eqb_eq in H; now subst| |]; rewrite H; auto.
Qed.
Lemma same_length_range st a b :
  match a with None => True | Some l => 0 <= l end -> match b with None => True | Some l => 0 <= l end ->
  oz_eqb (range_end st a) (range_end st b) = same_length a b.
Proof.
  unfold same_length, range_end. intros Ha Hb. destruct a as [x|], b as [y|]; auto;
    [destruct (Z.eqb_spec x 0), (Z.eqb_spec y 0)|destruct (Z.eqb_spec x 0)|destruct (Z.eqb_spec y 0)]; cbn [oz_eqb];
    subst; auto; try (symmetry; apply Z.eqb_neq; lia).
  destruct (Z.eqb_spec (st + x) (st + y)), (Z.eqb_spec x y); auto; lia.
Qed.

(** ** Removing one lock *)
Lemma remove_first_of_h h p l : (forall k, p k = true -> of_h h k = true) ->
  match remove_first p l with
  | None => remove_first p (filter (of_h h) l) = None
  | Some l' =>
      remove_first p (filter (of_h h) l) = Some (filter (of_h h) l')
      /\ (forall h', h' <> h -> filter (of_h h') l' = filter (of_h h') l) /\ incl l' l
  end.
Proof.
  intros Hp. induction l as [|k l IH]; cbn [remove_first filter]; auto.
  destruct (p k) eqn:E.
  - rewrite (Hp _ E). cbn [remove_first]. rewrite E. split; auto. split.
    + intros h' Hn. destruct (of_h h' k) eqn:E'; auto. apply Hp in E. unfold of_h in *. lia.
    + intros x; now right.
  - destruct (remove_first p l) as [l'|] eqn:Er; cbn [option_map].
    + destruct IH as (I1 & I2 & I3). destruct (of_h h k) eqn:Eh; cbn [remove_first filter].
      * rewrite E, I1. cbn [option_map]. rewrite Eh. split; auto. split.
        -- intros h' Hn. destruct (of_h h' k); auto. f_equal. auto.
        -- intros x [<-|Hx]; [now left|right; auto].
      * rewrite Eh. split; auto. split.
        -- intros h' Hn. destruct (of_h h' k); auto. f_equal. auto.
        -- intros x [<-|Hx]; [now left|right; auto].
    + destruct (of_h h k) eqn:Eh; cbn [remove_first]; auto. now rewrite E, IH.
Qed.
Lemma remove_first_app {A} (p : A -> bool) a x b :
  (forall y, In y a -> p y = false) -> p x = true -> remove_first p (a ++ x :: b) = Some (a ++ b).
Proof.
  intros Ha Hx. induction a as [|y a IH]; cbn [app remove_first]; [now rewrite Hx|].
  rewrite (Ha y) by now left. rewrite IH by (intros; apply Ha; now right). reflexivity.
Qed.
Lemma remove_first_none {A} (p : A -> bool) l : (forall y, In y l -> p y = false) -> remove_first p l = None.
Proof.
  intros H. induction l as [|y l IH]; cbn [remove_first]; auto.
  rewrite (H y) by now left. now rewrite IH by (intros; apply H; now right).
Qed.
Lemma drop_held_split l st len :
  (drop_held l st len = l /\ forall x, In x l -> is_held st len x = false)
  \/ exists a x b, l = a ++ x :: b /\ drop_held l st len = a ++ b /\ is_held st len x = true
     /\ (forall y, In y a -> is_held st len y = false).
Proof.
  induction l as [|[[sh s] n] l IH]; cbn [drop_held]; [left; split; auto; intros x []|].
  destruct ((s =? st) && same_length n len) eqn:E.
  - right. exists [], (sh, s, n), l. cbn [app is_held]. split; auto. split; auto. split; auto. intros y [].
  - destruct IH as [(E1 & H)|(a & x & b & -> & E1 & Hx & Ha)].
    + left. split; [now rewrite E1|]. intros x [<-|Hx]; auto.
    + right. exists ((sh, s, n) :: a), x, b. cbn [app]. split; auto. split; [now rewrite E1|]. split; auto.
      intros y [<-|Hy]; auto.
Qed.
Lemma delete_rc h l st len : (forall x, In x l -> hfits x) -> match len with None => True | Some n => 0 <= n end ->
  delete_match (map (rc h) l) h st (range_end st len)
  = if existsb (is_held st len) l then Some (map (rc h) (drop_held l st len)) else None.
Proof.
  intros Hf Hlen. induction l as [|[[sh s] n] l IH]; cbn [map rc delete_match existsb drop_held is_held]; auto.
  cbn [lk_handle lk_start lk_end]. rewrite Z.eqb_refl. cbn [andb].
  assert (match n with None => True | Some l => 0 <= l end) as Hn.
  { specialize (Hf _ (or_introl eq_refl)). destruct Hf as [_ Hf]. destruct n; auto. lia. }
  destruct (Z.eqb_spec s st) as [->|Hs]; cbn [andb orb].
  - rewrite same_length_range by auto. destruct (same_length n len); cbn [orb]; auto.
    rewrite IH by (intros; apply Hf; now right). destruct (existsb (is_held st len) l); auto.
  - rewrite IH by (intros; apply Hf; now right). destruct (existsb (is_held st len) l); auto.
Qed.

(** ** The invariant *)
Definition cross (s : wlsys) : Prop := forall a b, In a (wk_locks s) -> In b (wk_locks s) -> wl_h a <> wl_h b ->
  wk_file s (wl_h a) = wk_file s (wl_h b) -> wl_overlap a b = true -> wl_sh a = true /\ wl_sh b = true.
Record winv (mine : Z -> bool) (m : Z -> list wheld) (s : wlsys) : Prop := {
  wi_pid : r_pid (wk_reg s) = wk_pid s;
  wi_reg : forall h, locks_of (wk_reg s) (huid h) = map (rc h) (m h);
  wi_sound : forall h, table_sound (map (rc h) (m h));
  wi_fit : forall h x, In x (m h) -> hfits x;
  wi_ker : forall h, mine h = true -> filter (of_h h) (wk_locks s) = map (kl h) (m h);
  wi_not : forall h, mine h = false -> m h = [];
  wi_cross : cross s }.

Lemma winv_start mine pid file strict : winv mine (fun _ => []) (no_locks pid file strict).
Proof.
  constructor; auto.
  - intros h. apply table_sound_nil.
  - intros h x [].
  - intros a b [].
Qed.

Lemma huid_inj a b : huid a = huid b -> a = b.
Proof. unfold huid. congruence. Qed.

(** Two locks of a handle have different first bytes. *)
Lemma same_start h a x b y z : table_sound (map (rc h) (a ++ x :: b)) -> hfits x -> hfits y -> In y a ->
  z = snd (fst x) -> snd (fst y) = z -> False.
Proof.
  intros Hs Fx Fy Hy -> E. apply in_split in Hy. destruct Hy as (a1 & a2 & ->).
  rewrite <- app_assoc in Hs. cbn [app] in Hs. rewrite map_app in Hs. cbn [map] in Hs. rewrite map_app in Hs. cbn [map] in Hs.
  set (i := List.length (map (rc h) a1)). set (j := List.length (map (rc h) a2)).
  assert (compat (rc h y) (rc h x)) as C.
  { apply (Hs i (i + S j)%nat); [lia| |].
    - unfold i. rewrite nth_error_app2, Nat.sub_diag; auto.
    - rewrite nth_error_app2 by (unfold i; lia). replace (i + S j - List.length (map (rc h) a1))%nat with (S j) by (unfold i; lia).
      cbn [nth_error]. rewrite nth_error_app2 by (unfold j; lia). unfold j. rewrite Nat.sub_diag. reflexivity. }
  destruct x as [[shx sx] nx], y as [[shy sy] ny]. cbn in E. subst sy.
  cut (lk_handle (rc h (shy, sx, ny)) <> lk_handle (rc h (shx, sx, nx))); [cbn; congruence|].
  apply C. exists sx. cbn [rc lk_start lk_end]. rewrite !range_end_covers. unfold covers.
  destruct Fx as [_ Fx], Fy as [_ Fy]. split; (split; [lia|]); [destruct ny|destruct nx]; auto; lia.
Qed.

Lemma table_sound_drop h l st len : table_sound (map (rc h) l) -> table_sound (map (rc h) (drop_held l st len)).
Proof.
  intros H. destruct (drop_held_split l st len) as [(E & _)|(a & x & b & -> & E & _)]; rewrite E; auto.
  rewrite map_app in *. cbn [map] in H. now apply table_sound_remove in H.
Qed.
Lemma drop_in l st len x : In x (drop_held l st len) -> In x l.
Proof.
  destruct (drop_held_split l st len) as [(E & _)|(a & y & b & -> & E & _)]; rewrite E; auto.
  intros H. apply in_app_or in H. apply in_or_app. cbn [In]. tauto.
Qed.

(** The system call of unlock. *)
Lemma unlock_held mine m s h st len : winv mine m s -> mine h = true ->
  match len with None => True | Some n => 0 <= n end ->
  existsb (is_held st len) (m h) = true ->
  exists l', win_file_unlock h len st s = (Ok tt, wk_set_locks s l')
    /\ filter (of_h h) l' = map (kl h) (drop_held (m h) st len)
    /\ (forall h', h' <> h -> filter (of_h h') l' = filter (of_h h') (wk_locks s))
    /\ incl l' (wk_locks s).
Proof.
  intros I Hm Hn He.
  destruct (drop_held_split (m h) st len) as [(_ & X)|(a & x & b & El & Ed & Hx & Ha)].
  { apply existsb_exists in He. destruct He as (x & Hin & Hx). rewrite (X _ Hin) in Hx. discriminate. }
  assert (hfits x) as Fx by (apply (wi_fit _ _ _ I h); rewrite El; apply in_or_app; right; now left).
  destruct x as [[sh st'] n]. cbn [is_held] in Hx. apply andb_true_iff in Hx. destruct Hx as [E1 E2].
  apply Z.eqb_eq in E1. subst st'.
  assert (fits len st) as Fl.
  { destruct Fx as [F1 F2]. split; auto. unfold same_length in E2. destruct len as [y|], n as [z|]; auto; lia. }
  unfold win_file_unlock. destruct (conv_words len st Fl) as (lo & hi & olo & ohi & -> & W1 & W2).
  unfold unlock_file_ex. rewrite W1, W2.
  set (p := fun k => (wl_h k =? h) && (wl_off k =? st) && (wl_len k =? klen len)).
  assert (remove_first p (filter (of_h h) (wk_locks s)) = Some (map (kl h) (a ++ b))) as R.
  { rewrite (wi_ker _ _ _ I h Hm), El, !map_app. cbn [map]. apply remove_first_app.
    - intros k Hk. apply in_map_iff in Hk. destruct Hk as (y & <- & Hy).
      destruct (p (kl h y)) eqn:Ep; auto. exfalso. unfold p in Ep.
      apply andb_true_iff in Ep. destruct Ep as [Ep _]. apply andb_true_iff in Ep. destruct Ep as [_ Ep]. apply Z.eqb_eq in Ep.
      refine (same_start h a (sh, st, n) b y st _ Fx _ Hy eq_refl _).
      + rewrite <- El. apply (wi_sound _ _ _ I).
      + apply (wi_fit _ _ _ I h). rewrite El. apply in_or_app. now left.
      + destruct y as [[? ?] ?]. exact Ep.
    - unfold p. cbn [kl wl_h wl_off wl_len]. rewrite !Z.eqb_refl, (same_length_klen _ _ E2), Z.eqb_refl. reflexivity. }
  assert (forall k, p k = true -> of_h h k = true) as Hp.
  { intros k Hk. unfold p in Hk. unfold of_h. destruct (wl_h k =? h); auto. }
  pose proof (remove_first_of_h h p (wk_locks s) Hp) as RF.
  destruct (remove_first p (wk_locks s)) as [l'|]; [|congruence].
  destruct RF as (R1 & R2 & R3). exists l'. split; auto. split; [|split; auto].
  rewrite R in R1. injection R1 as R1. now rewrite <- R1, Ed.
Qed.

Lemma cross_incl s l : cross s -> incl l (wk_locks s) -> forall r, cross (mkWls r (wk_pid s) l (wk_file s) (wk_strict s)).
Proof. intros C Hi r a b Ha Hb. apply C; apply Hi; auto. Qed.

Lemma upd_same (m : Z -> list wheld) h v : upd Z.eqb m h v h = v.
Proof. unfold upd. now rewrite Z.eqb_refl. Qed.
Lemma upd_other (m : Z -> list wheld) h h' v : h' <> h -> upd Z.eqb m h v h' = m h'.
Proof. intros H. unfold upd. destruct (Z.eqb_spec h h'); congruence. Qed.

(** ** unlock *)
Lemma unregister_spec mine m s h st len : winv mine m s ->
  match len with None => True | Some n => 0 <= n end ->
  (existsb (is_held st len) (m h) = true ->
   exists b n r', unregister_file_lock (wk_pid s) (wk_reg s) (huid h) h len st = (Ok b, r', n)
     /\ r_pid r' = wk_pid s
     /\ locks_of r' (huid h) = map (rc h) (drop_held (m h) st len)
     /\ (forall h', h' <> h -> locks_of r' (huid h') = locks_of (wk_reg s) (huid h')))
  /\ (existsb (is_held st len) (m h) = false ->
      (unregister_file_lock (wk_pid s) (wk_reg s) (huid h) h len st = (Err ERuntime, wk_reg s, false))
      \/ (m h = [] /\ unregister_file_lock (wk_pid s) (wk_reg s) (huid h) h len st = (Ok true, wk_reg s, false))).
Proof.
  intros I Hn. unfold unregister_file_lock, check_forking. rewrite (wi_pid _ _ _ I), Z.eqb_refl.
  unfold try_unlocking_range. pose proof (wi_reg _ _ _ I h) as R. unfold locks_of in R.
  destruct (r_map (wk_reg s) (huid h)) as [e|] eqn:E.
  - rewrite R. rewrite delete_rc by (auto; apply (wi_fit _ _ _ I)).
    destruct (existsb (is_held st len) (m h)); split; intros X; try discriminate; [|left; auto].
    eexists _, _, _. split; [reflexivity|]. split; [exact (wi_pid _ _ _ I)|]. split.
    + unfold locks_of. rewrite reg_set_eq. reflexivity.
    + intros h' Hh. unfold locks_of. rewrite reg_set_neq; auto. intros Z. apply huid_inj in Z. auto.
  - destruct (m h) as [|x l] eqn:Em; [|discriminate]. split; [discriminate|]. intros _. right. split; auto.
Qed.

Lemma not_held_unlock mine m s h st len : winv mine m s -> mine h = true -> m h = [] ->
  exists e, win_file_unlock h len st s = (Err e, s).
Proof.
  intros I Hm E. unfold win_file_unlock.
  destruct (win32_convert_file_range_arguments len (Some st)) as [[[[lo hi] olo] ohi]|e]; [|eexists; reflexivity].
  unfold unlock_file_ex. match goal with |- context [remove_first ?q _] => set (p := q) end. pose proof (wi_ker _ _ _ I h Hm) as K. rewrite E in K. cbn [map] in K.
  rewrite remove_first_none; [eexists; reflexivity|].
  intros y Hy. unfold p. destruct (Z.eqb_spec (wl_h y) h) as [Eh|]; auto. exfalso.
  assert (In y (filter (of_h h) (wk_locks s))) as X by (apply filter_In; split; auto; unfold of_h; lia).
  rewrite K in X. destruct X.
Qed.

Lemma wunlock_spec mine m s h st len : winv mine m s -> mine h = true ->
  match len with None => True | Some n => 0 <= n end ->
  (existsb (is_held st len) (m h) = true ->
     exists s', wunlock h len st s = (Ok tt, s') /\ winv mine (upd Z.eqb m h (drop_held (m h) st len)) s'
       /\ incl (wk_locks s') (wk_locks s)
       /\ (forall h', h' <> h -> filter (of_h h') (wk_locks s') = filter (of_h h') (wk_locks s)))
  /\ (existsb (is_held st len) (m h) = false -> exists e, wunlock h len st s = (Err e, s)).
Proof.
  intros I Hm Hn. destruct (unregister_spec _ _ _ h st len I Hn) as [U1 U2]. unfold wunlock. split; intros E.
  - destruct (U1 E) as (b & n & r' & -> & P & L1 & L2).
    destruct (unlock_held _ _ _ h st len I Hm Hn E) as (l' & K & K1 & K2 & K3).
    assert (forall s1, wk_locks s1 = wk_locks s -> win_file_unlock h len st s1 = (Ok tt, wk_set_locks s1 l')) as K'.
    { intros s1 Es. clear - K Es. unfold win_file_unlock in *.
      destruct (win32_convert_file_range_arguments len (Some st)) as [[[[lo hi] olo] ohi]|e]; [|discriminate].
      unfold unlock_file_ex in *. rewrite Es. set (f := remove_first _ _) in *. destruct f as [l|]; [|discriminate].
      injection K as K. now rewrite K. }
    rewrite (K' (wk_set_reg s r') eq_refl). eexists. split; [reflexivity|]. split; [|split; auto].
    constructor; cbn [wk_reg wk_pid wk_locks wk_set_locks wk_set_reg].
    + exact P.
    + intros h'. destruct (Z.eq_dec h' h) as [->|Hh]; [now rewrite upd_same|].
      rewrite upd_other, L2 by auto. apply (wi_reg _ _ _ I).
    + intros h'. destruct (Z.eq_dec h' h) as [->|Hh]; [rewrite upd_same; apply table_sound_drop|rewrite upd_other by auto];
        apply (wi_sound _ _ _ I).
    + intros h' x. destruct (Z.eq_dec h' h) as [->|Hh]; [rewrite upd_same; intros X; apply drop_in in X; revert X|rewrite upd_other by auto];
        apply (wi_fit _ _ _ I).
    + intros h' Hm'. destruct (Z.eq_dec h' h) as [->|Hh]; [now rewrite upd_same|].
      rewrite upd_other, K2 by auto. now apply (wi_ker _ _ _ I).
    + intros h' Hm'. destruct (Z.eq_dec h' h) as [->|Hh]; [congruence|]. rewrite upd_other by auto. now apply (wi_not _ _ _ I).
    + apply (cross_incl s); auto. apply (wi_cross _ _ _ I).
  - destruct s as [r pid l f st0]; cbn [wk_reg wk_pid wk_locks wk_set_reg] in *.
    destruct (U2 E) as [->|(Em & ->)]; [eexists; reflexivity|].
    cbn [wk_set_reg wk_pid wk_locks wk_file wk_strict]. eapply not_held_unlock; eauto.
Qed.

(** ** lock *)
Lemma winv_reg mine m s r' : winv mine m s -> r_pid r' = wk_pid s ->
  (forall h, locks_of r' (huid h) = locks_of (wk_reg s) (huid h)) -> winv mine m (wk_set_reg s r').
Proof.
  intros I P R. destruct I. constructor; auto. intros h. cbn [wk_reg wk_set_reg]. rewrite R. auto.
Qed.

Definition taken (s : wlsys) (new : wlock) : bool := existsb (fun old => wl_conflict (wk_file s) old new) (wk_locks s).
Definition refused (s : wlsys) (new : wlock) : bool := wk_strict s && (2 ^ 64 <? wl_off new + wl_len new).

Lemma file_lock_spec h len st sh s : fits len st ->
  win_file_lock h len st sh s
  = if refused s (mkWl h st (klen len) sh) then (Err (EOS EINVAL), s)
    else if taken s (mkWl h st (klen len) sh) then (Err (EOS 13), s)
    else (Ok tt, wk_set_locks s (wk_locks s ++ [mkWl h st (klen len) sh])).
Proof.
  intros F. unfold win_file_lock. destruct (conv_words len st F) as (lo & hi & olo & ohi & -> & W1 & W2).
  unfold lock_file_ex. rewrite W1, W2. reflexivity.
Qed.

Lemma overlap_sym a b : wl_overlap a b = wl_overlap b a.
Proof. unfold wl_overlap. now rewrite Z.max_comm, Z.min_comm. Qed.
Lemma cross_add s new r : cross s -> taken s new = false ->
  cross (mkWls r (wk_pid s) (wk_locks s ++ [new]) (wk_file s) (wk_strict s)).
Proof.
  intros C T.
  assert (forall a, In a (wk_locks s) -> wl_h a <> wl_h new -> wk_file s (wl_h a) = wk_file s (wl_h new) ->
            wl_overlap a new = true -> wl_sh a = true /\ wl_sh new = true) as N.
  { intros a Ha Hh Hf Ho. destruct (wl_conflict (wk_file s) a new) eqn:E.
    - exfalso. unfold taken in T. rewrite (proj2 (existsb_exists _ _)) in T; [discriminate|]. exists a. auto.
    - unfold wl_conflict in E. rewrite Hf, Z.eqb_refl, Ho in E. cbn [andb] in E.
      destruct (wl_sh new); [|discriminate]. destruct (wl_sh a); auto. cbn [negb andb] in E.
      destruct (Z.eqb_spec (wl_h a) (wl_h new)); [congruence|discriminate]. }
  intros a b Ha Hb. cbn [wk_locks wk_file] in *. apply in_app_or in Ha. apply in_app_or in Hb.
  destruct Ha as [Ha|[<-|[]]], Hb as [Hb|[<-|[]]]; auto.
  - intros Hh Hf Ho. rewrite overlap_sym in Ho. destruct (N b Hb) as [X Y]; auto; congruence.
Qed.

(** What one attempt to lock does: the four cases. *)
Lemma wlock_spec mine m s h len st sh : winv mine m s -> mine h = true -> fits len st ->
  let free := forall x, In x (m h) -> ~ exists b, hd_covers x b /\ covers st len b in
  let new := mkWl h st (klen len) sh in
  (exists s', wlock_once h len st sh s = (Ok tt, s') /\ free /\ taken s new = false /\ refused s new = false
     /\ winv mine (upd Z.eqb m h (m h ++ [(sh, st, len)])) s' /\ wk_locks s' = wk_locks s ++ [new])
  \/ (exists s' e, wlock_once h len st sh s = (Err e, s') /\ ~ (free /\ taken s new = false /\ refused s new = false)
     /\ winv mine m s' /\ wk_locks s' = wk_locks s
     /\ (free -> e = ELocking (if refused s new then EINVAL else 13))
     /\ (~ free -> e = ERuntime)).
Proof.
  intros I Hm F free new. unfold wlock_once, register_once, check_forking.
  rewrite (wi_pid _ _ _ I), Z.eqb_refl.
  destruct (try_locking_range (wk_reg s) (huid h) h len st sh) as [o r1] eqn:E.
  destruct (try_locking_cases _ _ _ _ _ _ _ _ E) as (C & P & (e1 & Ee) & Ho & _).
  rewrite (wi_pid _ _ _ I) in P.
  assert (forall h', h' <> h -> locks_of r1 (huid h') = locks_of (wk_reg s) (huid h')) as Ho'.
  { intros h' Hh. unfold locks_of. rewrite Ho; auto. intros X. apply huid_inj in X. auto. }
  assert (forall x b, hd_covers x b <-> in_range (lk_start (rc h x)) (lk_end (rc h x)) b) as HC.
  { intros [[sh0 st0] n0] b. cbn [rc lk_start lk_end hd_covers]. symmetry. apply range_end_covers. }
  assert (forall x, lk_handle (rc h x) = h) as HH by (intros [[? ?] ?]; reflexivity).
  assert (locks_of r1 (huid h) = locks_of (wk_reg s) (huid h) -> winv mine m (wk_set_reg s r1)) as Same.
  { intros X. apply winv_reg; auto. intros h'. destruct (Z.eq_dec h' h) as [->|]; auto. }
  inversion C as [r1' Hfree HL X1 X2|r1' lk Hin Hc HL X1 X2|r1' lk Hin Hc HL X1 X2]; subst o r1'.
  - (* recorded *)
    rewrite (wi_reg _ _ _ I) in Hfree, HL.
    assert (free) as HF.
    { intros x Hx (b & Hb & Hb'). destruct (Hfree (rc h x) (in_map _ _ _ Hx)) as [N _]. apply N.
      split; [apply HH|]. exists b. split; [now apply HC|now apply range_end_covers]. }
    rewrite (file_lock_spec h len st sh (wk_set_reg s r1) F). fold new.
    change (refused (wk_set_reg s r1) new) with (refused s new).
    change (taken (wk_set_reg s r1) new) with (taken s new).
    assert (table_sound (map (rc h) (m h ++ [(sh, st, len)]))) as TS.
    { rewrite map_app. cbn [map]. apply table_sound_app_one. split; [apply (wi_sound _ _ _ I)|].
      intros y Hy. destruct (Hfree y Hy). now apply not_conflict_compat. }
    assert (winv mine (upd Z.eqb m h (m h ++ [(sh, st, len)])) (wk_set_reg (wk_set_locks s (wk_locks s ++ [new])) r1) \/ taken s new = true) as W.
    { destruct (taken s new) eqn:T; auto. left.
      constructor; cbn [wk_reg wk_pid wk_locks wk_set_locks wk_set_reg]; auto.
      + intros h'. destruct (Z.eq_dec h' h) as [->|Hh]; [rewrite upd_same, map_app; exact HL|].
        rewrite upd_other, Ho' by auto. apply (wi_reg _ _ _ I).
      + intros h'. destruct (Z.eq_dec h' h) as [->|Hh]; [now rewrite upd_same|]. rewrite upd_other by auto. apply (wi_sound _ _ _ I).
      + intros h' x. destruct (Z.eq_dec h' h) as [->|Hh].
        * rewrite upd_same. intros X. apply in_app_or in X. destruct X as [X|[<-|[]]]; auto. now apply (wi_fit _ _ _ I h).
        * rewrite upd_other by auto. apply (wi_fit _ _ _ I).
      + intros h' Hm'. rewrite filter_app. cbn [filter]. destruct (Z.eq_dec h' h) as [->|Hh].
        * rewrite upd_same, map_app, (wi_ker _ _ _ I h Hm). unfold of_h, new. cbn [wl_h]. now rewrite Z.eqb_refl.
        * rewrite upd_other by auto. unfold of_h at 2. unfold new at 1. cbn [wl_h].
          destruct (Z.eqb_spec h h'); [congruence|]. rewrite app_nil_r. now apply (wi_ker _ _ _ I).
      + intros h' Hm'. destruct (Z.eq_dec h' h) as [->|Hh]; [congruence|]. rewrite upd_other by auto. now apply (wi_not _ _ _ I).
      + apply (cross_add s new r1); auto. apply (wi_cross _ _ _ I). }
    assert (exists b n r3, unregister_file_lock (wk_pid s) r1 (huid h) h len st = (Ok b, r3, n)
              /\ winv mine m (wk_set_reg s r3)) as U.
    { unfold unregister_file_lock, check_forking. rewrite P, Z.eqb_refl. unfold try_unlocking_range.
      unfold locks_of in HL. rewrite Ee in *. rewrite HL.
      change [mkLock h sh st (range_end st len)] with (map (rc h) [(sh, st, len)]). rewrite <- map_app.
      assert (match len with None => True | Some n => 0 <= n end) as Hn by (destruct F as [_ F]; destruct len; auto; lia).
      rewrite delete_rc; auto.
      - destruct (drop_held_split (m h ++ [(sh, st, len)]) st len) as [(_ & X)|(a & x & b & El & Ed & Hx & Ha)].
        { exfalso. assert (is_held st len (sh, st, len) = false) as X' by (apply X; apply in_or_app; right; now left).
          cbn [is_held] in X'. rewrite Z.eqb_refl in X'. destruct len as [n|]; cbn in X'; [rewrite Z.eqb_refl in X'|]; discriminate. }
        assert (b = []) as ->.
        { destruct b as [|y b]; auto. exfalso. destruct (@exists_last _ (y :: b)) as (b' & z & Eb); [discriminate|].
          rewrite Eb in El. rewrite app_comm_cons, app_assoc in El. apply app_inj_tail in El. destruct El as [El <-].
          assert (In x (m h)) as Hxm by (rewrite El; apply in_or_app; right; now left).
          apply (HF x); auto. destruct x as [[shx sx] nx]. cbn [is_held] in Hx. apply andb_true_iff in Hx. destruct Hx as [Hx _].
          apply Z.eqb_eq in Hx. subst sx. exists st. pose proof (wi_fit _ _ _ I h _ Hxm) as [_ Fx]. cbn [hd_covers]. unfold covers.
          split; (split; [lia|]); [destruct nx|destruct len]; auto; lia. }
        apply app_inj_tail in El. destruct El as [El <-]. rewrite app_nil_r in Ed. rewrite Ed, <- El.
        rewrite existsb_app. cbn [existsb]. rewrite Hx. rewrite orb_true_r.
        eexists _, _, _. split; [reflexivity|]. apply winv_reg; auto.
        intros h'. destruct (Z.eq_dec h' h) as [->|Hh].
        + unfold locks_of at 1. rewrite reg_set_eq. cbn [e_locks]. symmetry. apply (wi_reg _ _ _ I).
        + unfold locks_of at 1. rewrite reg_set_neq by (intros X; apply huid_inj in X; auto).
          rewrite <- (Ho' h' Hh). reflexivity.
      - intros x X. apply in_app_or in X. destruct X as [X|[<-|[]]]; auto. now apply (wi_fit _ _ _ I h). }
    destruct U as (b & n & r3 & U & W3).
    destruct (refused s new) eqn:RF.
    { right. eexists _, _. cbn [wk_pid wk_reg wk_set_reg]. rewrite U. split; [reflexivity|].
      split; [intros (_ & _ & X); discriminate|]. split; [exact W3|]. split; [reflexivity|]. split; auto. tauto. }
    destruct (taken s new) eqn:T.
    { right. eexists _, _. cbn [wk_pid wk_reg wk_set_reg]. rewrite U. split; [reflexivity|].
      split; [intros (_ & X & _); discriminate|]. split; [exact W3|]. split; [reflexivity|]. split; auto. tauto. }
    left. eexists. split; [reflexivity|]. split; auto. split; auto. split; auto. destruct W as [W|]; [|discriminate].
    split; [exact W|reflexivity].
  - (* busy: only other handles, but the key is the handle *)
    exfalso. rewrite (wi_reg _ _ _ I) in Hin. apply in_map_iff in Hin. destruct Hin as (x & <- & _).
    destruct Hc as [Hc _]. apply Hc. apply HH.
  - right. rewrite (wi_reg _ _ _ I) in Hin. apply in_map_iff in Hin. destruct Hin as (x & <- & Hx).
    destruct Hc as (_ & b & Hb & Hb').
    assert (~ free) as NF.
    { intros Fr. apply (Fr x Hx). exists b. split; [now apply HC|now apply range_end_covers]. }
    eexists _, _. split; [reflexivity|]. split; [tauto|]. split; [now apply Same|]. split; [reflexivity|]. split; auto. tauto.
Qed.

(** ** close *)
Lemma unlock_all_spec h l : forall s, (forall x, In x l -> hfits x) -> table_sound (map (rc h) l) ->
  filter (of_h h) (wk_locks s) = map (kl h) l ->
  exists l', wunlock_all h (map (rc h) l) s = (Ok tt, wk_set_locks s l')
    /\ filter (of_h h) l' = []
    /\ (forall h', h' <> h -> filter (of_h h') l' = filter (of_h h') (wk_locks s))
    /\ incl l' (wk_locks s).
Proof.
  induction l as [|[[sh st] n] l IH]; intros s Hf Ht Hk.
  - exists (wk_locks s). destruct s. split; [reflexivity|]. split; auto. split; auto. apply incl_refl.
  - cbn [map rc wunlock_all lk_end lk_start].
    assert (fits n st) as F by (apply (Hf _ (or_introl eq_refl))).
    set (len := match range_end st n with None => None | Some e => Some (e - st) end).
    assert (fits len st /\ klen len = klen n) as [F' EK].
    { unfold len, range_end. destruct F as [F1 F2]. destruct n as [x|]; [|split; [split|]; auto].
      destruct (Z.eqb_spec x 0) as [->|Hx]; [split; [split; auto|reflexivity]|].
      replace (st + x - st) with x by lia. split; [split; auto|reflexivity]. }
    unfold win_file_unlock at 1. destruct (conv_words len st F') as (lo & hi & olo & ohi & -> & W1 & W2).
    unfold seq, bind, unlock_file_ex. rewrite W1, W2, EK.
    set (p := fun k => (wl_h k =? h) && (wl_off k =? st) && (wl_len k =? klen n)).
    assert (remove_first p (filter (of_h h) (wk_locks s)) = Some (map (kl h) l)) as R.
    { rewrite Hk. cbn [map remove_first kl]. unfold p at 1. cbn [wl_h wl_off wl_len]. now rewrite !Z.eqb_refl. }
    assert (forall k, p k = true -> of_h h k = true) as Hp.
    { intros k X. unfold p in X. unfold of_h. destruct (wl_h k =? h); auto. }
    pose proof (remove_first_of_h h p (wk_locks s) Hp) as RF.
    destruct (remove_first p (wk_locks s)) as [l1|]; [|congruence].
    destruct RF as (R1 & R2 & R3). rewrite R in R1. injection R1 as R1.
    destruct (IH (wk_set_locks s l1)) as (l2 & E & E1 & E2 & E3).
    + intros; apply Hf; now right.
    + cbn [map] in Ht. now apply table_sound_cons in Ht.
    + cbn [wk_locks wk_set_locks]. congruence.
    + exists l2. rewrite E. split; [reflexivity|]. split; auto. split.
      * intros h' Hh. rewrite E2 by auto. cbn [wk_locks wk_set_locks]. auto.
      * eapply incl_tran; eauto.
Qed.

Lemma filter_comm_h h h' (l : list wlock) : h' <> h ->
  filter (of_h h') (filter (fun k => negb (wl_h k =? h)) l) = filter (of_h h') l.
Proof.
  intros Hh. induction l as [|k l IH]; cbn [filter]; auto.
  destruct (Z.eqb_spec (wl_h k) h); cbn [negb filter].
  - destruct (of_h h' k) eqn:E; auto. unfold of_h in E. lia.
  - now rewrite IH.
Qed.
Lemma filter_h_gone h (l : list wlock) : filter (of_h h) (filter (fun k => negb (wl_h k =? h)) l) = [].
Proof.
  induction l as [|k l IH]; cbn [filter]; auto.
  destruct (wl_h k =? h) eqn:E; cbn [negb filter]; auto. unfold of_h at 1. now rewrite E.
Qed.

Lemma wclose_spec mine m s h : winv mine m s -> mine h = true ->
  exists s', wclose h s = (Ok tt, s') /\ winv mine (upd Z.eqb m h []) s'
    /\ incl (wk_locks s') (wk_locks s)
    /\ filter (of_h h) (wk_locks s') = []
    /\ (forall h', h' <> h -> filter (of_h h') (wk_locks s') = filter (of_h h') (wk_locks s)).
Proof.
  intros I Hm. unfold wclose, remove_file_locks, check_forking. rewrite (wi_pid _ _ _ I), Z.eqb_refl.
  pose proof (wi_reg _ _ _ I h) as R. unfold locks_of in R.
  assert (forall l, filter (fun lk => lk_handle lk =? h) (map (rc h) l) = map (rc h) l) as FA.
  { induction l as [|[[? ?] ?] l IH]; cbn [map filter rc lk_handle]; auto. now rewrite Z.eqb_refl, IH. }
  assert (forall l, filter (fun lk => negb (lk_handle lk =? h)) (map (rc h) l) = []) as FN.
  { induction l as [|[[? ?] ?] l IH]; cbn [map filter rc lk_handle]; auto. rewrite Z.eqb_refl. auto. }
  assert (exists r', (match r_map (wk_reg s) (huid h) with
     | Some e => (filter (fun lk => lk_handle lk =? h) (e_locks e),
         reg_set (wk_reg s) (huid h) (Some (mkEntry (filter (fun lk => negb (lk_handle lk =? h)) (e_locks e)) (e_data e) (e_waiting e))))
     | None => ([], wk_reg s) end) = (map (rc h) (m h), r')
     /\ r_pid r' = wk_pid s /\ locks_of r' (huid h) = []
     /\ forall h', h' <> h -> locks_of r' (huid h') = locks_of (wk_reg s) (huid h')) as (r' & -> & P & L1 & L2).
  { destruct (r_map (wk_reg s) (huid h)) as [e|] eqn:E.
    - rewrite R, FA, FN. eexists. split; [reflexivity|]. split; [exact (wi_pid _ _ _ I)|]. split.
      + unfold locks_of. rewrite reg_set_eq. reflexivity.
      + intros h' Hh. unfold locks_of. rewrite reg_set_neq; auto. intros X. apply huid_inj in X. auto.
    - rewrite <- R. eexists. split; [reflexivity|]. split; [exact (wi_pid _ _ _ I)|]. split; auto. unfold locks_of. now rewrite E. }
  destruct (unlock_all_spec h (m h) (wk_set_reg s r')) as (l' & E & E1 & E2 & E3).
  { apply (wi_fit _ _ _ I). } { apply (wi_sound _ _ _ I). } { apply (wi_ker _ _ _ I h Hm). }
  unfold seq, bind. rewrite E. unfold drop_handle. eexists. split; [reflexivity|].
  cbn [wk_locks wk_set_locks wk_set_reg] in *.
  set (l'' := filter (fun k => negb (wl_h k =? h)) l').
  assert (incl l'' (wk_locks s)) as Hi.
  { intros k Hk. apply E3. unfold l'' in Hk. apply filter_In in Hk. tauto. }
  assert (forall h', h' <> h -> filter (of_h h') l'' = filter (of_h h') (wk_locks s)) as Hfo.
  { intros h' Hh. unfold l''. rewrite filter_comm_h by auto. auto. }
  assert (filter (of_h h) l'' = []) as Hg by apply filter_h_gone.
  split; [|split; [exact Hi|split; [exact Hg|exact Hfo]]].
  constructor; cbn [wk_reg wk_pid wk_locks wk_set_locks wk_set_reg].
  + exact P.
  + intros h'. destruct (Z.eq_dec h' h) as [->|Hh]; [now rewrite upd_same|].
    rewrite upd_other, L2 by auto. apply (wi_reg _ _ _ I).
  + intros h'. destruct (Z.eq_dec h' h) as [->|Hh]; [rewrite upd_same; apply table_sound_nil|rewrite upd_other by auto].
    apply (wi_sound _ _ _ I).
  + intros h' x. destruct (Z.eq_dec h' h) as [->|Hh]; [rewrite upd_same; intros []|rewrite upd_other by auto].
    apply (wi_fit _ _ _ I).
  + intros h' Hm'. destruct (Z.eq_dec h' h) as [->|Hh]; [now rewrite upd_same|].
    rewrite upd_other, Hfo by auto. now apply (wi_ker _ _ _ I).
  + intros h' Hm'. destruct (Z.eq_dec h' h) as [->|Hh]; [congruence|]. rewrite upd_other by auto. now apply (wi_not _ _ _ I).
  + apply (cross_incl s); auto. apply (wi_cross _ _ _ I).
Qed.

(** ** Other processes *)
Lemma winv_locks mine m s l : winv mine m s ->
  (forall h, mine h = true -> filter (of_h h) l = filter (of_h h) (wk_locks s)) ->
  cross (wk_set_locks s l) -> winv mine m (wk_set_locks s l).
Proof.
  intros I H C. destruct I. constructor; auto. intros h Hm. cbn [wk_locks wk_set_locks]. rewrite H by auto. auto.
Qed.

Lemma step mine m s op : wlop_ok mine op -> winv mine m s ->
  let '(x, s1) := run_wlop op s in winv mine (note op x m) s1.
Proof.
  intros Ho I. destruct op as [h len off sh|h len off|h|h off len sh|h off len|h]; cbn [run_wlop wlop_ok] in *.
  - destruct Ho as [Hm F]. destruct (wlock_spec _ _ _ h len off sh I Hm F) as [(s' & -> & _ & _ & _ & W & _)|(s' & e & -> & _ & W & _)]; auto.
  - destruct Ho as [Hm F]. destruct (wunlock_spec _ _ _ h off len I Hm F) as [U1 U2].
    destruct (existsb (is_held off len) (m h)).
    + destruct (U1 eq_refl) as (s' & -> & W & _). exact W.
    + destruct (U2 eq_refl) as (e & ->). exact I.
  - destruct (wclose_spec _ _ _ h I Ho) as (s' & -> & W & _). exact W.
  - unfold lock_file_ex. set (w := words off len). destruct w as [[[lo hi] olo] ohi]. set (new := mkWl h _ _ _).
    fold (refused s new). fold (taken s new).
    destruct (refused s new); auto. destruct (taken s new) eqn:T; auto. apply winv_locks; auto.
    + intros h' Hm. rewrite filter_app. cbn [filter]. unfold of_h at 2. unfold new. cbn [wl_h].
      destruct (Z.eqb_spec h h'); [congruence|]. now rewrite app_nil_r.
    + apply (cross_add s new (wk_reg s)); auto. apply (wi_cross _ _ _ I).
  - unfold unlock_file_ex. set (w := words off len). destruct w as [[[lo hi] olo] ohi].
    match goal with |- context [remove_first ?q _] => set (p := q) end.
    assert (forall k, p k = true -> of_h h k = true) as Hp.
    { intros k X. unfold p in X. unfold of_h. destruct (wl_h k =? h); auto. }
    pose proof (remove_first_of_h h p (wk_locks s) Hp) as RF.
    destruct (remove_first p (wk_locks s)) as [l'|]; auto. destruct RF as (_ & R2 & R3).
    cbn [note]. apply winv_locks; auto.
    + intros h' Hm. apply R2. congruence.
    + apply (cross_incl s); auto. apply (wi_cross _ _ _ I).
  - unfold drop_handle. cbn [note]. apply winv_locks; auto.
    + intros h' Hm. apply filter_comm_h. congruence.
    + apply (cross_incl s); [apply (wi_cross _ _ _ I)|]. intros k Hk. apply filter_In in Hk. tauto.
Qed.
Lemma run_winv mine ops : forall m s, Forall (wlop_ok mine) ops -> winv mine m s ->
  winv mine (fst (run_wlops ops m s)) (snd (run_wlops ops m s)).
Proof.
  induction ops as [|op ops IH]; intros m s Ho I; cbn [run_wlops]; auto.
  inversion_clear Ho. pose proof (step mine m s op H I) as S.
  destruct (run_wlop op s) as [x s1]. apply IH; auto.
Qed.
Definition wk_const (s : wlsys) : (Z -> Z) * bool := (wk_file s, wk_strict s).
Lemma run_const ops : forall m s, wk_const (snd (run_wlops ops m s)) = wk_const s.
Proof.
  assert (forall op s, wk_const (snd (run_wlop op s)) = wk_const s) as S.
  { assert (forall h a sh s, wk_const (snd (lock_file_ex h a sh s)) = wk_const s) as S1.
    { intros h [[[? ?] ?] ?] sh s. unfold lock_file_ex. destruct (_ && _); auto. destruct (existsb _ _); auto. }
    assert (forall h a s, wk_const (snd (unlock_file_ex h a s)) = wk_const s) as S2.
    { intros h [[[? ?] ?] ?] s. unfold unlock_file_ex. destruct (remove_first _ _); auto. }
    assert (forall h len off s, wk_const (snd (win_file_unlock h len off s)) = wk_const s) as S3.
    { intros. unfold win_file_unlock. destruct (win32_convert_file_range_arguments _ _); auto. }
    intros [h len off sh|h len off|h|h off len sh|h off len|h] s; cbn [run_wlop]; auto.
    - unfold wlock_once. destruct (register_once _ _ _ _ _ _ _ _) as [[[]|] r1]; auto.
      assert (wk_const (snd (win_file_lock h len off sh (wk_set_reg s r1))) = wk_const s) as X.
      { unfold win_file_lock. destruct (win32_convert_file_range_arguments _ _); auto; rewrite S1; auto. }
      destruct (win_file_lock h len off sh (wk_set_reg s r1)) as [[x|e] s2]; auto.
      destruct (unregister_file_lock _ _ _ _ _ _) as [[[y|y] r3] n]; auto.
    - unfold wunlock. destruct (unregister_file_lock _ _ _ _ _ _) as [[[y|y] r3] n]; auto; rewrite S3; auto.
    - unfold wclose. destruct (remove_file_locks _ _ _ _) as [l r1].
      assert (forall l s, wk_const (snd (wunlock_all h l s)) = wk_const s) as S4.
      { clear - S3. induction l as [|lk l IH]; intros s; auto. cbn [wunlock_all]. unfold seq, bind.
        set (x := match lk_end lk with Some e => _ | None => None end).
        pose proof (S3 h x (lk_start lk) s) as E.
        destruct (win_file_unlock h x (lk_start lk) s) as [[]s1]; auto. rewrite IH. exact E. }
      unfold seq, bind. pose proof (S4 l (wk_set_reg s r1)) as E.
      destruct (wunlock_all h l (wk_set_reg s r1)) as [[]s1]; auto. }
  induction ops as [|op ops IH]; intros m s; cbn [run_wlops]; auto.
  pose proof (S op s) as E. destruct (run_wlop op s) as [x s1]. rewrite IH. exact E.
Qed.
Lemma run_file ops m s : wk_file (snd (run_wlops ops m s)) = wk_file s.
Proof. pose proof (run_const ops m s) as H. unfold wk_const in H. congruence. Qed.
Lemma run_strict ops m s : wk_strict (snd (run_wlops ops m s)) = wk_strict s.
Proof. pose proof (run_const ops m s) as H. unfold wk_const in H. congruence. Qed.

Lemma rc_covers h x b : hfits x -> hd_covers x b -> b < 2 ^ 64 - 1 ->
  wl_off (kl h x) <= b < wl_off (kl h x) + wl_len (kl h x).
Proof.
  destruct x as [[sh st] n]. cbn [hfits hd_covers kl wl_off wl_len]. unfold fits, covers, klen.
  intros [F1 F2] [H1 H2] Hb. destruct n as [l|]; [|lia]. destruct (Z.eqb_spec l 0); lia.
Qed.

(** * C59: mutual exclusion *)

(** Whatever the process does with its streams and the other processes with theirs, as
    long as offsets and lengths fit in 64 bits: two streams (handles) of the process never
    hold locks on a common byte of a file unless both are shared; one handle never holds a byte
    twice; and a byte locked by the process is locked by another process only if
    both locks are shared.  Missing: the byte 2^64-1, which no lock reaches, and
    larger offsets and lengths (see the refutation). *)
Theorem C59_exclusion_partial : forall mine pid file strict ops,
  Forall (wlop_ok mine) ops ->
  let '(m, s) := run_wlops ops (fun _ => []) (no_locks pid file strict) in
  (forall h1 h2 x y b, h1 <> h2 -> file h1 = file h2 -> In x (m h1) -> In y (m h2) ->
     hd_covers x b -> hd_covers y b -> b < 2 ^ 64 - 1 -> hd_shared x = true /\ hd_shared y = true)
  /\ (forall h i j x y b, i <> j -> nth_error (m h) i = Some x -> nth_error (m h) j = Some y ->
        hd_covers x b -> hd_covers y b -> False)
  /\ (forall h x k b, In x (m h) -> In k (wk_locks s) -> mine (wl_h k) = false -> file h = file (wl_h k) ->
        hd_covers x b -> wl_off k <= b < wl_off k + wl_len k -> b < 2 ^ 64 - 1 ->
        hd_shared x = true /\ wl_sh k = true).
Proof.
  intros mine pid file strict ops Ho.
  pose proof (run_winv mine ops _ _ Ho (winv_start mine pid file strict)) as I.
  pose proof (run_file ops (fun _ => []) (no_locks pid file strict)) as Ef.
  destruct (run_wlops ops (fun _ => []) (no_locks pid file strict)) as [m s]. cbn [fst snd] in *.
  change (wk_file (no_locks pid file strict)) with file in Ef.
  assert (forall h x, In x (m h) -> mine h = true /\ In (kl h x) (wk_locks s)) as K.
  { intros h x Hx. assert (mine h = true) as Hm.
    { destruct (mine h) eqn:E; auto. rewrite (wi_not _ _ _ I h E) in Hx. destruct Hx. }
    split; auto. assert (In (kl h x) (filter (of_h h) (wk_locks s))) as X by (rewrite (wi_ker _ _ _ I h Hm); now apply in_map).
    apply filter_In in X. tauto. }
  assert (forall h x, wl_h (kl h x) = h /\ wl_sh (kl h x) = hd_shared x) as KH by (intros h [[? ?] ?]; auto).
  assert (forall a b c, wl_off a <= c < wl_off a + wl_len a -> wl_off b <= c < wl_off b + wl_len b -> wl_overlap a b = true) as OV.
  { intros a b c Ha Hb. unfold wl_overlap. apply Z.ltb_lt. lia. }
  split; [|split].
  - intros h1 h2 x y b Hh Hf Hx Hy Cx Cy Hb.
    destruct (K _ _ Hx) as [_ Kx], (K _ _ Hy) as [_ Ky], (KH h1 x) as [Ax Bx], (KH h2 y) as [Ay By].
    rewrite <- Bx, <- By. apply (wi_cross _ _ _ I); auto; rewrite ?Ax, ?Ay, ?Ef; auto.
    apply (OV _ _ b); apply rc_covers; auto; eapply (wi_fit _ _ _ I); eauto.
  - intros h i j x y b Hij Hi Hj Cx Cy.
    assert (compat (rc h x) (rc h y)) as C by (apply (wi_sound _ _ _ I h i j); auto; now apply map_nth_error).
    assert (lk_handle (rc h x) <> lk_handle (rc h y)) as N; [|apply N; destruct x as [[? ?] ?], y as [[? ?] ?]; reflexivity].
    apply C. exists b. destruct x as [[? ?] ?], y as [[? ?] ?]. split; now apply range_end_covers.
  - intros h x k b Hx Hk Hm Hf Cx Ck Hb. destruct (K _ _ Hx) as [Hmh Kx], (KH h x) as [Ax Bx].
    rewrite <- Bx. apply (wi_cross _ _ _ I); auto; rewrite ?Ax, ?Ef; auto; [congruence|].
    apply (OV _ _ b); auto. apply rc_covers; auto. eapply (wi_fit _ _ _ I); eauto.
Qed.

(** The locks of a handle at the system are those the program has been granted. *)
Theorem C59_system_agrees : forall mine pid file strict ops,
  Forall (wlop_ok mine) ops ->
  let '(m, s) := run_wlops ops (fun _ => []) (no_locks pid file strict) in
  forall h, mine h = true ->
  map (fun k => (wl_sh k, wl_off k, wl_len k)) (filter (fun k => wl_h k =? h) (wk_locks s))
  = map (fun x : wheld => let '(sh, start, length) := x in
         (sh, start, match length with Some l => if l =? 0 then 2 ^ 64 - 1 else l | None => 2 ^ 64 - 1 end)) (m h).
Proof.
  intros mine pid file strict ops Ho.
  pose proof (run_winv mine ops _ _ Ho (winv_start mine pid file strict)) as I.
  destruct (run_wlops ops (fun _ => []) (no_locks pid file strict)) as [m s]. cbn [fst snd] in *.
  intros h Hm. change (fun k => wl_h k =? h) with (of_h h). rewrite (wi_ker _ _ _ I h Hm), map_map.
  apply map_ext. intros [[sh st] [l|]]; reflexivity.
Qed.

(** False for a length of 2^64: the words of the length are masked to 0, the lock
    is reported as granted, and another process locks the same bytes exclusively. *)
Theorem C59_exclusion_refuted : exists ops m s,
  ops = [WLock 1 (Some (2 ^ 64)) 0 false; OLock 2 0 10 false]
  /\ run_wlops ops (fun _ => []) (no_locks 7 (fun _ => 5) true) = (m, s)
  /\ m 1 = [(false, 0, Some (2 ^ 64))]
  /\ In (mkWl 2 0 10 false) (wk_locks s).
Proof.
  eexists _, _, _. split; [reflexivity|]. split; [reflexivity|]. split; [reflexivity|]. vm_compute. tauto.
Qed.

(** * C60: what each call does *)

(** lock_file(timeout=0) succeeds exactly when the handle holds no byte of the range, no
    other lock of the system conflicts and the system accepts the range; a failure
    changes no lock. *)
Theorem C60_lock : forall mine pid file strict ops h length offset shared,
  Forall (wlop_ok mine) ops -> mine h = true -> fits length offset ->
  let '(m, s) := run_wlops ops (fun _ => []) (no_locks pid file strict) in
  let n := match length with Some l => if l =? 0 then 2 ^ 64 - 1 else l | None => 2 ^ 64 - 1 end in
  let '(r, s') := wlock_once h length offset shared s in
  (r = Ok tt <->
     (forall x b, In x (m h) -> hd_covers x b -> ~ covers offset length b)
     /\ (forall k, In k (wk_locks s) -> file (wl_h k) = file h ->
           Z.max (wl_off k) offset < Z.min (wl_off k + wl_len k) (offset + n) ->
           shared = true /\ (wl_sh k = true \/ wl_h k = h))
     /\ (strict = true -> offset + n <= 2 ^ 64))
  /\ (r = Ok tt -> wk_locks s' = wk_locks s ++ [mkWl h offset n shared])
  /\ (r <> Ok tt -> wk_locks s' = wk_locks s).
Proof.
  intros mine pid file strict ops h len off sh Ho Hm F.
  pose proof (run_winv mine ops _ _ Ho (winv_start mine pid file strict)) as I.
  pose proof (run_file ops (fun _ => []) (no_locks pid file strict)) as Ef.
  pose proof (run_strict ops (fun _ => []) (no_locks pid file strict)) as Es.
  destruct (run_wlops ops (fun _ => []) (no_locks pid file strict)) as [m s]. cbn [fst snd] in *.
  change (wk_file (no_locks pid file strict)) with file in Ef. change (wk_strict (no_locks pid file strict)) with strict in Es.
  cbv zeta. change (match len with Some l => if l =? 0 then 2 ^ 64 - 1 else l | None => 2 ^ 64 - 1 end) with (klen len).
  assert (taken s (mkWl h off (klen len) sh) = false <->
     (forall k, In k (wk_locks s) -> file (wl_h k) = file h ->
           Z.max (wl_off k) off < Z.min (wl_off k + wl_len k) (off + klen len) ->
           sh = true /\ (wl_sh k = true \/ wl_h k = h))) as T.
  { unfold taken. split.
    - intros X k Hk Hf Hv. destruct (wl_conflict (wk_file s) k (mkWl h off (klen len) sh)) eqn:E.
      + exfalso. rewrite (proj2 (existsb_exists _ _)) in X; [discriminate|]. exists k. auto.
      + unfold wl_conflict, wl_overlap in E. cbn [wl_h wl_off wl_len wl_sh] in E. rewrite Ef, Hf, Z.eqb_refl in E.
        rewrite (proj2 (Z.ltb_lt _ _) Hv) in E. cbn [andb] in E. destruct sh; [|discriminate]. split; auto.
        destruct (wl_sh k); auto. destruct (Z.eqb_spec (wl_h k) h); auto.
    - intros X. destruct (existsb _ _) eqn:E; auto. exfalso. apply existsb_exists in E. destruct E as (k & Hk & E).
      unfold wl_conflict, wl_overlap in E. cbn [wl_h wl_off wl_len wl_sh] in E. rewrite Ef in E.
      apply andb_true_iff in E. destruct E as [E E3]. apply andb_true_iff in E. destruct E as [E1 E2].
      apply Z.eqb_eq in E1. apply Z.ltb_lt in E2. destruct (X k Hk E1 E2) as [-> Y].
      apply andb_true_iff in E3. destruct E3 as [E3 E4]. destruct (wl_sh k); [discriminate|].
      destruct (Z.eqb_spec (wl_h k) h); [discriminate|]. destruct Y; congruence. }
  assert (refused s (mkWl h off (klen len) sh) = false <-> (strict = true -> off + klen len <= 2 ^ 64)) as RF.
  { unfold refused. rewrite Es. cbn [wl_off wl_len]. destruct strict; cbn [andb]; [|split; auto; discriminate].
    rewrite Z.ltb_ge. split; auto. }
  destruct (wlock_spec mine m s h len off sh I Hm F) as [(s' & -> & Fr & T' & R' & _ & EL)|(s' & e & -> & N & _ & EL & _)].
  - rewrite <- T, <- RF. split; [|split; [auto|congruence]]. split; auto. intros _. split; [|split; auto].
    intros x b Hx Hb Hc. apply (Fr x Hx). exists b. auto.
  - rewrite <- T, <- RF. split; [|split; [discriminate|auto]]. split; [discriminate|]. intros (Y1 & Y2 & Y3). exfalso. apply N.
    split; [|split; auto]. intros x Hx (b & Hb & Hc). apply (Y1 x b); auto.
Qed.

(** unlock_file() succeeds exactly when the handle holds a lock with that first byte and that length, and
    gives back that lock only. *)
Theorem C60_unlock : forall mine pid file strict ops h length offset,
  Forall (wlop_ok mine) ops -> mine h = true -> (forall l, length = Some l -> 0 <= l) ->
  let '(m, s) := run_wlops ops (fun _ => []) (no_locks pid file strict) in
  let '(r, s') := wunlock h length offset s in
  (r = Ok tt <-> exists shared length', In (shared, offset, length') (m h) /\ same_length length' length = true)
  /\ (r <> Ok tt -> wk_locks s' = wk_locks s)
  /\ (forall h', h' <> h -> filter (fun k => wl_h k =? h') (wk_locks s') = filter (fun k => wl_h k =? h') (wk_locks s))
  /\ (r = Ok tt -> S (List.length (filter (fun k => wl_h k =? h) (wk_locks s'))) = List.length (filter (fun k => wl_h k =? h) (wk_locks s))).
Proof.
  intros mine pid file strict ops h len off Ho Hm Hl.
  pose proof (run_winv mine ops _ _ Ho (winv_start mine pid file strict)) as I.
  destruct (run_wlops ops (fun _ => []) (no_locks pid file strict)) as [m s]. cbn [fst snd] in *.
  assert (match len with None => True | Some n => 0 <= n end) as Hn by (destruct len; auto).
  destruct (wunlock_spec mine m s h off len I Hm Hn) as [U1 U2].
  destruct (existsb (is_held off len) (m h)) eqn:E.
  - destruct (U1 eq_refl) as (s' & -> & W & _ & Hf). split; [|split; [congruence|split; auto]].
    + split; auto. intros _. apply existsb_exists in E. destruct E as ([[sh st] n] & Hin & E). cbn [is_held] in E.
      apply andb_true_iff in E. destruct E as [E1 E2]. apply Z.eqb_eq in E1. subst st. eauto.
    + intros _. change (fun k => wl_h k =? h) with (of_h h). rewrite (wi_ker _ _ _ W h Hm), (wi_ker _ _ _ I h Hm), upd_same, !map_length.
      destruct (drop_held_split (m h) off len) as [(_ & X)|(a & x & b & El & Ed & _)].
      * apply existsb_exists in E. destruct E as (x & Hx & E). rewrite (X x Hx) in E. discriminate.
      * rewrite Ed, El, !app_length. cbn [List.length]. lia.
  - destruct (U2 eq_refl) as (e & ->). split; [|split; [auto|split; [auto|discriminate]]]. split; [discriminate|].
    intros (sh & n & Hin & X). exfalso. rewrite (proj2 (existsb_exists _ _)) in E; [discriminate|].
    exists (sh, off, n). split; auto. cbn [is_held]. rewrite Z.eqb_refl. exact X.
Qed.

(** close() succeeds, gives back all the locks of the handle, and no lock of any other handle: unlike on
    unix, closing a stream does not touch the locks of the other streams on the file. *)
Theorem C60_close : forall mine pid file strict ops h,
  Forall (wlop_ok mine) ops -> mine h = true ->
  let '(m, s) := run_wlops ops (fun _ => []) (no_locks pid file strict) in
  let '(r, s') := wclose h s in
  r = Ok tt
  /\ filter (fun k => wl_h k =? h) (wk_locks s') = []
  /\ (forall h', h' <> h -> filter (fun k => wl_h k =? h') (wk_locks s') = filter (fun k => wl_h k =? h') (wk_locks s))
  /\ locks_of (wk_reg s') (huid h) = [].
Proof.
  intros mine pid file strict ops h Ho Hm.
  pose proof (run_winv mine ops _ _ Ho (winv_start mine pid file strict)) as I.
  destruct (run_wlops ops (fun _ => []) (no_locks pid file strict)) as [m s]. cbn [fst snd] in *.
  destruct (wclose_spec mine m s h I Hm) as (s' & -> & W & _ & Hg & Hf).
  split; auto. split; auto. split; auto. rewrite (wi_reg _ _ _ W), upd_same. reflexivity.
Qed.

(** On systems that refuse ranges beyond 2^64, locking "to infinity" from any offset larger than 1 fails,
    on a file that nobody has locked. *)
Theorem C60_lock_to_infinity_refuted : forall pid file h offset shared, 1 < offset < 2 ^ 64 ->
  fst (wlock_once h None offset shared (no_locks pid file true)) = Err (ELocking EINVAL).
Proof.
  intros pid file h off sh Hb.
  assert (fits None off) as F by (split; [lia|auto]).
  destruct (wlock_spec (fun _ => true) (fun _ => []) (no_locks pid file true) h None off sh (winv_start _ _ _ _) eq_refl F)
    as [(s' & _ & _ & _ & R & _)|(s' & e & -> & _ & _ & _ & E & _)].
  - exfalso. unfold refused in R. cbn [wk_strict no_locks andb wl_off wl_len klen] in R. apply Z.ltb_ge in R. lia.
  - cbn [fst]. rewrite E; [|intros x []]. f_equal. f_equal. unfold refused. cbn [wk_strict no_locks andb wl_off wl_len klen].
    rewrite (proj2 (Z.ltb_lt _ _)) by lia. reflexivity.
Qed.

(** Two streams on one handle (the second one opened with handle=, closefd=False or not) are one owner: a byte locked through one
    is "already locked" for the other instead of busy, and closing one gives back the locks of the other. *)
Example C60_streams_of_a_handle :
  let '(m, s) := run_wlops [WLock 1 (Some 4) 0 false] (fun _ => []) (no_locks 7 (fun _ => 5) true) in
  fst (wlock_once 1 (Some 4) 2 false s) = Err ERuntime /\ wk_locks (snd (wclose 1 s)) = [].
Proof. vm_compute. auto. Qed.

(** Two handles of one process, another process, an unlock, a close. *)
Example C59_example :
  let mine h := h <? 10 in
  let ops := [WLock 1 (Some 4) 0 true; WLock 2 (Some 4) 2 true; WLock 2 None 100 false; OLock 11 3 1 true; OLock 11 50 100 true;
              WUnlock 1 (Some 4) 0; WLock 1 (Some 0) 120 true; WClose 2; WLock 1 (Some 0) 1 true] in
  let ms := run_wlops ops (fun _ => []) (no_locks 7 (fun _ => 5) false) in
  Forall (wlop_ok mine) ops
  /\ fst ms 1 = [(true, 1, Some 0)] /\ fst ms 2 = []
  /\ wk_locks (snd ms) = [mkWl 11 3 1 true; mkWl 1 1 (2 ^ 64 - 1) true].
Proof.
  split; [|vm_compute; auto].
  repeat apply Forall_cons; try apply Forall_nil; cbn [wlop_ok]; unfold fits; cbn; intuition lia.
Qed.

Print Assumptions C59_exclusion_partial.
Print Assumptions C59_system_agrees.
Print Assumptions C59_exclusion_refuted.
Print Assumptions C60_lock.
Print Assumptions C60_unlock.
Print Assumptions C60_close.
Print Assumptions C60_lock_to_infinity_refuted.
