(** C101: lock_file() with waiting and timeouts on windows. *)
From Coq Require Import ZArith List Bool Lia.
From Verif Require Import M_Base M_Util M_Registry M_World M_WinLocks M_WinWait S_Locks S_WinLocks S_WinWait
  P_Registry C_WinLocks.
Import ListNotations.
Open Scope Z_scope.

(** * Calls on other handles do not see the pending record *)
Definition agree (v : uid) (a b : registry) : Prop :=
  r_pid a = r_pid b /\ forall u, u <> v -> r_map a u = r_map b u.

Lemma agree_set v a b u x : agree v a b -> u <> v -> agree v (reg_set a u x) (reg_set b u x).
Proof.
  intros [P H] Hu. split; auto. intros w Hw. unfold reg_set. cbn [r_map]. unfold upd.
  destruct (uid_eqb u w); auto.
Qed.
Lemma set_other v a u x : u <> v -> r_map (reg_set a u x) v = r_map a v.
Proof. intros H. apply reg_set_neq. auto. Qed.

Lemma agree_locking v a b u h len st sh : agree v a b -> u <> v ->
  fst (try_locking_range a u h len st sh) = fst (try_locking_range b u h len st sh)
  /\ agree v (snd (try_locking_range a u h len st sh)) (snd (try_locking_range b u h len st sh))
  /\ r_map (snd (try_locking_range a u h len st sh)) v = r_map a v.
Proof.
  intros A Hu. unfold try_locking_range, ensure_entry_exists. rewrite <- (proj2 A u Hu).
  destruct (r_map a u) as [e|] eqn:E.
  - rewrite <- (proj2 A u Hu), E. destruct (scan_locks _ _ _ _ _); cbn [fst snd]; auto using agree_set, set_other.
  - rewrite !reg_set_eq. destruct (scan_locks _ _ _ _ _); cbn [fst snd]; rewrite ?set_other by auto;
      auto using agree_set, set_other.
Qed.
Lemma agree_unlocking v a b u h len st : agree v a b -> u <> v ->
  fst (fst (try_unlocking_range a u h len st)) = fst (fst (try_unlocking_range b u h len st))
  /\ agree v (snd (fst (try_unlocking_range a u h len st))) (snd (fst (try_unlocking_range b u h len st)))
  /\ r_map (snd (fst (try_unlocking_range a u h len st))) v = r_map a v.
Proof.
  intros A Hu. unfold try_unlocking_range. rewrite <- (proj2 A u Hu).
  destruct (r_map a u) as [e|] eqn:E; cbn [fst snd]; auto.
  destruct (delete_match _ _ _ _); cbn [fst snd]; auto using agree_set, set_other.
Qed.

Lemma unlocking_pid a u h len st : r_pid (snd (fst (try_unlocking_range a u h len st))) = r_pid a.
Proof. unfold try_unlocking_range. destruct (r_map a u); auto. destruct (delete_match _ _ _ _); auto. Qed.

(** Two states that differ only in the registry entry of [h]. *)
Record like (h : Z) (a b : wlsys) : Prop := {
  lk_pid : wk_pid a = wk_pid b;
  lk_locks : wk_locks a = wk_locks b;
  lk_file : wk_file a = wk_file b;
  lk_strict : wk_strict a = wk_strict b;
  lk_rpid : r_pid (wk_reg a) = wk_pid a;
  lk_reg : agree (huid h) (wk_reg a) (wk_reg b) }.

Lemma like_reg h a b ra rb : like h a b -> agree (huid h) ra rb -> r_pid ra = wk_pid a ->
  like h (wk_set_reg a ra) (wk_set_reg b rb).
Proof. intros [] A R. constructor; auto. Qed.
Lemma like_ker h a b la : like h a b -> like h (wk_set_locks a la) (wk_set_locks b la).
Proof. intros []. constructor; auto. Qed.

Definition simulates (h : Z) (a : wlsys) (x y : res unit * wlsys) : Prop :=
  fst x = fst y /\ like h (snd x) (snd y) /\ r_map (wk_reg (snd x)) (huid h) = r_map (wk_reg a) (huid h).

Lemma sim_lockex h a b h' args sh : like h a b -> simulates h a (lock_file_ex h' args sh a) (lock_file_ex h' args sh b).
Proof.
  intros L. destruct args as [[[lo hi] olo] ohi]. unfold lock_file_ex.
  rewrite <- (lk_strict _ _ _ L), <- (lk_file _ _ _ L), <- (lk_locks _ _ _ L).
  destruct (wk_strict a && _); [split; auto|]. destruct (existsb _ _); split; auto.
  split; auto. now apply like_ker.
Qed.
Lemma sim_unlockex h a b h' args : like h a b -> simulates h a (unlock_file_ex h' args a) (unlock_file_ex h' args b).
Proof.
  intros L. destruct args as [[[lo hi] olo] ohi]. unfold unlock_file_ex.
  rewrite <- (lk_locks _ _ _ L). destruct (remove_first _ _); split; auto. split; auto. now apply like_ker.
Qed.
Lemma sim_drop h a b h' : like h a b -> simulates h a (drop_handle h' a) (drop_handle h' b).
Proof. intros L. unfold drop_handle. rewrite <- (lk_locks _ _ _ L). split; auto. split; auto. now apply like_ker. Qed.
Lemma sim_flock h a b h' len st sh : like h a b -> simulates h a (win_file_lock h' len st sh a) (win_file_lock h' len st sh b).
Proof.
  intros L. unfold win_file_lock. destruct (win32_convert_file_range_arguments _ _) as [x|e].
  - now apply sim_lockex.
  - split; auto.
Qed.
Lemma sim_funlock h a b h' len st : like h a b -> simulates h a (win_file_unlock h' len st a) (win_file_unlock h' len st b).
Proof.
  intros L. unfold win_file_unlock. destruct (win32_convert_file_range_arguments _ _) as [x|e].
  - now apply sim_unlockex.
  - split; auto.
Qed.
Lemma sim_unlock_all h h' l : forall a b, like h a b -> simulates h a (wunlock_all h' l a) (wunlock_all h' l b).
Proof.
  induction l as [|k l IH]; intros a b L; cbn [wunlock_all]; [split; auto|].
  unfold bind. set (n := match lk_end k with None => None | Some e => Some (e - lk_start k) end).
  destruct (sim_funlock h a b h' n (lk_start k) L) as (E & L1 & R).
  destruct (win_file_unlock h' n (lk_start k) a) as [x a1], (win_file_unlock h' n (lk_start k) b) as [y b1].
  cbn [fst snd] in *. subst y. destruct x as [[]|e]; [|split; auto].
  destruct (IH a1 b1 L1) as (E2 & L2 & R2). split; auto. split; auto. congruence.
Qed.

Lemma sim_op h a b op : like h a b -> wlop_handle op <> h -> simulates h a (run_wlop op a) (run_wlop op b).
Proof.
  intros L Hh.
  assert (r_pid (wk_reg b) = wk_pid b) as Pb.
  { rewrite <- (lk_pid _ _ _ L), <- (lk_rpid _ _ _ L). symmetry. apply (lk_reg _ _ _ L). }
  assert (forall h', h' <> h -> huid h' <> huid h) as Hu by (intros h' X Y; apply X; now apply huid_inj).
  destruct op as [h' len off sh|h' len off|h'|h' off len sh|h' off len|h']; cbn [run_wlop wlop_handle] in *.
  - unfold wlock_once, register_once, check_forking. rewrite Pb, (lk_rpid _ _ _ L), !Z.eqb_refl.
    destruct (agree_locking (huid h) _ _ (huid h') h' len off sh (lk_reg _ _ _ L) (Hu _ Hh)) as (E & A & R).
    destruct (try_locking_range (wk_reg a) (huid h') h' len off sh) as [x ra] eqn:Ea.
    destruct (try_locking_range (wk_reg b) (huid h') h' len off sh) as [y rb] eqn:Eb. cbn [fst snd] in *. subst y.
    destruct (try_locking_cases _ _ _ _ _ _ _ _ Ea) as (_ & P & _). rewrite (lk_rpid _ _ _ L) in P.
    pose proof (like_reg h a b ra rb L A P) as L1.
    destruct x as [[|]|e]; [|split; auto|split; auto].
    destruct (sim_flock h _ _ h' len off sh L1) as (E2 & L2 & R2).
    assert (r_pid (wk_reg (snd (win_file_lock h' len off sh (wk_set_reg b rb))))
            = wk_pid (snd (win_file_lock h' len off sh (wk_set_reg b rb)))) as Pb2.
    { rewrite <- (lk_pid _ _ _ L2), <- (lk_rpid _ _ _ L2). symmetry. apply (lk_reg _ _ _ L2). }
    destruct (win_file_lock h' len off sh (wk_set_reg a ra)) as [x a2], (win_file_lock h' len off sh (wk_set_reg b rb)) as [y b2].
    cbn [fst snd wk_reg wk_set_reg] in *. subst y. destruct x as [[]|e]; [split; auto; split; auto; cbn [snd]; congruence|].
    unfold unregister_file_lock, check_forking. rewrite Pb2, (lk_rpid _ _ _ L2), !Z.eqb_refl.
    destruct (agree_unlocking (huid h) _ _ (huid h') h' len off (lk_reg _ _ _ L2) (Hu _ Hh)) as (E3 & A3 & R3).
    assert (r_pid (snd (fst (try_unlocking_range (wk_reg a2) (huid h') h' len off))) = wk_pid a2) as P3.
    { rewrite <- (lk_rpid _ _ _ L2). apply unlocking_pid. }
    destruct (try_unlocking_range (wk_reg a2) (huid h') h' len off) as [[x3 r3] n3].
    destruct (try_unlocking_range (wk_reg b2) (huid h') h' len off) as [[y3 s3] m3]. cbn [fst snd] in *. subst y3.
    pose proof (like_reg h a2 b2 r3 s3 L2 A3 P3) as L3.
    destruct x3; split; auto; split; auto; cbn [snd wk_reg wk_set_reg]; congruence.
  - unfold wunlock, unregister_file_lock, check_forking. rewrite Pb, (lk_rpid _ _ _ L), !Z.eqb_refl.
    destruct (agree_unlocking (huid h) _ _ (huid h') h' len off (lk_reg _ _ _ L) (Hu _ Hh)) as (E3 & A3 & R3).
    assert (r_pid (snd (fst (try_unlocking_range (wk_reg a) (huid h') h' len off))) = wk_pid a) as P3.
    { rewrite <- (lk_rpid _ _ _ L). apply unlocking_pid. }
    destruct (try_unlocking_range (wk_reg a) (huid h') h' len off) as [[x3 r3] n3].
    destruct (try_unlocking_range (wk_reg b) (huid h') h' len off) as [[y3 s3] m3]. cbn [fst snd] in *. subst y3.
    pose proof (like_reg h a b r3 s3 L A3 P3) as L3.
    destruct x3; [|split; auto]. destruct (sim_funlock h _ _ h' len off L3) as (E4 & L4 & R4).
    split; auto. split; auto. cbn [wk_reg wk_set_reg] in R4. congruence.
  - unfold wclose, remove_file_locks, check_forking. rewrite Pb, (lk_rpid _ _ _ L), !Z.eqb_refl.
    rewrite <- (proj2 (lk_reg _ _ _ L) (huid h') (Hu _ Hh)).
    assert (forall l ra rb, agree (huid h) ra rb -> r_pid ra = wk_pid a -> r_map ra (huid h) = r_map (wk_reg a) (huid h) ->
      simulates h a ((wunlock_all h' l ;; drop_handle h') (wk_set_reg a ra)) ((wunlock_all h' l ;; drop_handle h') (wk_set_reg b rb))) as X.
    { intros l ra rb A P R. pose proof (like_reg h a b ra rb L A P) as L1. unfold bind.
      destruct (sim_unlock_all h h' l _ _ L1) as (E4 & L4 & R4).
      destruct (wunlock_all h' l (wk_set_reg a ra)) as [x a2], (wunlock_all h' l (wk_set_reg b rb)) as [y b2].
      cbn [fst snd wk_reg wk_set_reg] in *. subst y. destruct x; [|split; auto; split; auto; cbn [snd]; congruence].
      destruct (sim_drop h a2 b2 h' L4) as (E5 & L5 & R5). split; auto. split; auto. congruence. }
    destruct (r_map (wk_reg a) (huid h')); apply X; auto; try apply (lk_rpid _ _ _ L).
    + apply agree_set; auto. apply (lk_reg _ _ _ L).
    + apply set_other; auto.
    + apply (lk_reg _ _ _ L).
  - now apply sim_lockex.
  - now apply sim_unlockex.
  - now apply sim_drop.
Qed.

Lemma sim_others h ops : forall a b m, like h a b -> Forall (fun op => wlop_handle op <> h) ops ->
  like h (run_others ops a) (snd (run_wlops ops m b))
  /\ r_map (wk_reg (run_others ops a)) (huid h) = r_map (wk_reg a) (huid h)
  /\ fst (run_wlops ops m b) h = m h.
Proof.
  induction ops as [|op ops IH]; intros a b m L F; [cbn; auto|].
  inversion_clear F as [|? ? Ho F']. destruct (sim_op h a b op L Ho) as (E & L1 & R1).
  change (run_others (op :: ops) a) with (run_others ops (snd (run_wlop op a))). cbn [run_wlops].
  destruct (run_wlop op b) as [y b1]. cbn [snd] in *.
  destruct (IH _ b1 (note op y m) L1 F') as (L2 & R2 & M2). split; auto. split; [congruence|].
  rewrite M2. clear - Ho. destruct op, y; cbn [note wlop_handle] in *; auto; apply upd_other; auto.
Qed.

(** * The loop *)
Lemma others_run ops : forall m s, run_others ops s = snd (run_wlops ops m s).
Proof.
  induction ops as [|op ops IH]; intros m s; cbn [run_wlops]; auto.
  change (run_others (op :: ops) s) with (run_others ops (snd (run_wlop op s))).
  destruct (run_wlop op s) as [x s1]. cbn [snd]. apply IH.
Qed.
Lemma run_app a b : forall m s, run_wlops (a ++ b) m s = let '(m1, s1) := run_wlops a m s in run_wlops b m1 s1.
Proof.
  induction a as [|op a IH]; intros m s; cbn [app run_wlops]; auto.
  destruct (run_wlop op s) as [x s1]. apply IH.
Qed.
Lemma acts_cons ev env : acts (ev :: env) = we_ops ev ++ acts env.
Proof. reflexivity. Qed.

Section Loop.
Context (mine : Z -> bool) (q : wlreq) (start : Z).
Let h := wq_h q.
Let len := wq_length q.
Let off := wq_off q.
Let sh := wq_shared q.
Let new := mkWl h off (klen len) sh.
Context (Hm : mine h = true) (F : fits len off) (Hspin : 0 <= wq_spin q).

Definition free (m : Z -> list wheld) : Prop := forall x, In x (m h) -> ~ exists b, hd_covers x b /\ covers off len b.
Definition blocked (s : wlsys) : bool := refused s new || taken s new.
Definition code (s : wlsys) : Z := if refused s new then EINVAL else 13.
(** The call goes on waiting. *)
Definition patient (s : wlsys) (now : Z) : Prop :=
  (wq_blocking q = true \/ wcheck_timeout q (now - start) (code s) = None).

(** The end of the call, after [k] events. *)
Definition ends (env : list wev) (m : Z -> list wheld) (s0 : wlsys) (now : Z) (o : res unit * wlsys * Z) : Prop :=
  let at_ (j : nat) := run_wlops (acts (firstn j env)) m s0 in
  let time (j : nat) := now + elapsed (firstn j env) in
  let '(r, s', now') := o in
  exists k, (k <= length env)%nat /\ now' = time k
    /\ (forall j, (j < k)%nat -> blocked (snd (at_ j)) = true /\ patient (snd (at_ j)) (time j))
    /\ ((r = Ok tt /\ blocked (snd (at_ k)) = false /\ same_locks s' (snd (wlock_once h len off sh (snd (at_ k)))))
        \/ (exists e, r = Err e /\ blocked (snd (at_ k)) = true /\ wq_blocking q = false
              /\ wcheck_timeout q (now' - start) (code (snd (at_ k))) = Some e /\ same_locks s' (snd (at_ k)))
        \/ (r = Err EHang /\ k = length env /\ blocked (snd (at_ k)) = true /\ patient (snd (at_ k)) now')).

Lemma ends_later ev env m s0 now o :
  blocked s0 = true -> patient s0 now ->
  ends env (fst (run_wlops (we_ops ev) m s0)) (snd (run_wlops (we_ops ev) m s0)) (now + we_dt ev) o ->
  ends (ev :: env) m s0 now o.
Proof.
  intros B P. unfold ends. destruct o as [[r s'] now'].
  assert (forall j, run_wlops (acts (firstn (S j) (ev :: env))) m s0
    = run_wlops (acts (firstn j env)) (fst (run_wlops (we_ops ev) m s0)) (snd (run_wlops (we_ops ev) m s0))) as E.
  { intros j. cbn [firstn]. rewrite acts_cons, run_app. now destruct (run_wlops (we_ops ev) m s0). }
  intros (k & Hk & Ht & Hj & X). exists (S k). cbn [length]. rewrite !E. split; [lia|].
  split; [cbn [firstn elapsed fold_right] in *; unfold elapsed in *; lia|]. split.
  - intros [|j] Hlt.
    + cbn [firstn acts flat_map run_wlops snd elapsed fold_right]. rewrite Z.add_0_r. auto.
    + rewrite E. destruct (Hj j) as [B1 P1]; [lia|]. split; auto.
      cbn [firstn elapsed fold_right]. unfold elapsed in P1. now rewrite Z.add_assoc.
  - destruct X as [X|[X|(X1 & X2 & X3)]]; auto. right. right. split; [exact X1|]. split; [congruence|exact X3].
Qed.

Lemma same_refl s : same_locks s s.
Proof. split; auto. Qed.

(** The registry after the record is given back. *)
Lemma give_back m s s0 : winv mine m s0 -> free m -> like h s s0 ->
  locks_of (wk_reg s) (huid h) = map (rc h) (m h ++ [(sh, off, len)]) ->
  exists b n r, unregister_file_lock (wk_pid s) (wk_reg s) (huid h) h len off = (Ok b, r, n)
    /\ same_locks (wk_set_reg s r) s0.
Proof.
  intros I HF L HL. unfold unregister_file_lock, check_forking. rewrite (lk_rpid _ _ _ L), Z.eqb_refl.
  unfold try_unlocking_range. unfold locks_of in HL.
  destruct (r_map (wk_reg s) (huid h)) as [e|] eqn:E.
  2:{ rewrite map_app in HL. cbn [map] in HL. now apply app_cons_not_nil in HL. }
  rewrite HL.
  assert (match len with None => True | Some n => 0 <= n end) as Hn.
  { clear - F. destruct F as [_ F']. destruct len; auto. lia. }
  rewrite delete_rc; auto.
  - destruct (drop_held_split (m h ++ [(sh, off, len)]) off len) as [(_ & X)|(a & x & b & El & Ed & Hx & Ha)].
    { exfalso. assert (is_held off len (sh, off, len) = false) as X' by (apply X; apply in_or_app; right; now left).
      cbn [is_held] in X'. rewrite Z.eqb_refl in X'. clear - X'. destruct len as [n|]; cbn in X'; [rewrite Z.eqb_refl in X'|]; discriminate. }
    assert (b = []) as ->.
    { destruct b as [|y b]; auto. exfalso. destruct (@exists_last _ (y :: b)) as (b' & z & Eb); [discriminate|].
      rewrite Eb in El. rewrite app_comm_cons, app_assoc in El. apply app_inj_tail in El. destruct El as [El <-].
      assert (In x (m h)) as Hxm by (rewrite El; apply in_or_app; right; now left).
      apply (HF x); auto. destruct x as [[shx sx] nx]. cbn [is_held] in Hx. apply andb_true_iff in Hx. destruct Hx as [Hx _].
      apply Z.eqb_eq in Hx. subst sx. exists off. pose proof (wi_fit _ _ _ I h _ Hxm) as [_ Fx]. cbn [hd_covers]. unfold covers.
      split; (split; [lia|]); [destruct nx; auto; lia|]. clear - F. destruct F as [_ F']. destruct len; auto. lia. }
    apply app_inj_tail in El. destruct El as [El <-]. rewrite app_nil_r in Ed. rewrite Ed, <- El.
    rewrite existsb_app. cbn [existsb]. rewrite Hx, orb_true_r.
    eexists _, _, _. split; [reflexivity|]. split; [apply (lk_locks _ _ _ L)|].
    intros h'. cbn [wk_reg wk_set_reg]. destruct (Z.eq_dec h' h) as [->|Hh].
    + rewrite reg_set_eq. cbn [e_locks]. symmetry. apply (wi_reg _ _ _ I).
    + assert (huid h' <> huid h) as Hu by (intros X; apply huid_inj in X; auto).
      rewrite reg_set_neq by auto. rewrite (proj2 (lk_reg _ _ _ L) _ Hu). reflexivity.
  - intros x X. apply in_app_or in X. destruct X as [X|[<-|[]]]; auto. now apply (wi_fit _ _ _ I h).
Qed.

Definition pending (m : Z -> list wheld) (s s0 : wlsys) : Prop :=
  winv mine m s0 /\ free m /\ like h s s0
  /\ locks_of (wk_reg s) (huid h) = map (rc h) (m h ++ [(sh, off, len)]).

Lemma kernel_turn env m s s0 now next : pending m s s0 ->
  (blocked s0 = true -> patient s0 now -> ends env m s0 now (next s)) ->
  ends env m s0 now
    match win_file_lock h len off sh s with
    | (Ok _, s2) => (Ok tt, s2, now)
    | (Err (EOS n), s2) =>
        if wq_blocking q && (n =? 13) then next s2
        else match wcheck_timeout q (now - start) n with
             | Some e => match unregister_file_lock (wk_pid s2) (wk_reg s2) (huid h) h len off with
                         | (Ok _, r, _) => (Err e, wk_set_reg s2 r, now)
                         | (Err e', r, _) => (Err e', wk_set_reg s2 r, now)
                         end
             | None => next s2
             end
    | (Err e, s2) => match unregister_file_lock (wk_pid s2) (wk_reg s2) (huid h) h len off with
                     | (Ok _, r, _) => (Err e, wk_set_reg s2 r, now)
                     | (Err e', r, _) => (Err e', wk_set_reg s2 r, now)
                     end
    end.
Proof.
  intros (I & HF & L & HL) Hnext.
  assert (refused s new = refused s0 new) as ER by (unfold refused; now rewrite (lk_strict _ _ _ L)).
  assert (taken s new = taken s0 new) as ET by (unfold taken; now rewrite (lk_file _ _ _ L), (lk_locks _ _ _ L)).
  rewrite (file_lock_spec h len off sh s F). fold new. rewrite ER, ET.
  destruct (give_back m s s0 I HF L HL) as (b & n & r & U & Same).
  assert (wq_blocking q = true -> forall c, wcheck_timeout q (now - start) c = None) as Pb.
  { unfold wq_blocking, wcheck_timeout. intros X c. destruct (wq_timeout q), (wq_enforced q); try discriminate.
    destruct (Z.ltb_spec (wq_spin q) 0); auto. lia. }
  assert (forall e, wcheck_timeout q (now - start) (code s0) = Some e -> blocked s0 = true ->
    ends env m s0 now (Err e, wk_set_reg s r, now)) as Raise.
  { intros e W B. exists 0%nat. cbn [firstn acts flat_map run_wlops snd elapsed fold_right]. rewrite Z.add_0_r.
    split; [lia|]. split; auto. split; [intros j Hj; lia|]. right. left. exists e. split; auto. split; auto.
    split; [|split; auto]. destruct (wq_blocking q) eqn:E; auto. rewrite (Pb eq_refl) in W. discriminate. }
  destruct (refused s0 new) eqn:R.
  - assert (blocked s0 = true) as B by (unfold blocked; now rewrite R).
    assert (code s0 = EINVAL) as C by (unfold code; now rewrite R).
    change (EINVAL =? 13) with false. rewrite andb_false_r.
    destruct (wcheck_timeout q (now - start) EINVAL) as [e|] eqn:W.
    + rewrite U. apply Raise; auto. now rewrite C.
    + apply Hnext; auto. right. now rewrite C.
  - destruct (taken s0 new) eqn:T.
    + assert (blocked s0 = true) as B by (unfold blocked; now rewrite R, T).
      assert (code s0 = 13) as C by (unfold code; now rewrite R).
      rewrite Z.eqb_refl, andb_true_r. destruct (wq_blocking q) eqn:E; [apply Hnext; auto; now left|].
      destruct (wcheck_timeout q (now - start) 13) as [e|] eqn:W.
      * rewrite U. apply Raise; auto. now rewrite C.
      * apply Hnext; auto. right. now rewrite C.
    + exists 0%nat. cbn [firstn acts flat_map run_wlops snd elapsed fold_right]. rewrite Z.add_0_r.
      split; [lia|]. split; auto. split; [intros j Hj; lia|]. left. split; auto.
      split; [unfold blocked; now rewrite R, T|].
      destruct (wlock_spec mine m s0 h len off sh I Hm F) as [(s2 & -> & _ & _ & _ & W & E)|(s2 & e & _ & N & _)].
      * cbn [snd]. split; [cbn [wk_locks wk_set_locks]; rewrite E; now rewrite (lk_locks _ _ _ L)|].
        intros h'. cbn [wk_reg wk_set_locks]. change (locks_of (wk_reg s) (huid h') = locks_of (wk_reg s2) (huid h')).
        rewrite (wi_reg _ _ _ W). destruct (Z.eq_dec h' h) as [->|Hh]; [now rewrite upd_same|].
        rewrite upd_other by auto. rewrite <- (wi_reg _ _ _ I). unfold locks_of.
        assert (huid h' <> huid h) as Hu by (intros X; apply huid_inj in X; auto).
        now rewrite (proj2 (lk_reg _ _ _ L) _ Hu).
      * exfalso. apply N. split; [exact HF|]. split; auto.
Qed.

Lemma kernel_spec env : forall m s s0 now, pending m s s0 -> Forall (others_ok mine h) env ->
  ends env m s0 now (wlock_loop q start env WKern s now).
Proof.
  induction env as [|ev env IH]; intros m s s0 now P Ho.
  - apply (kernel_turn [] m s s0 now (fun s => (Err EHang, s, now)) P). intros B Pa.
    exists 0%nat. cbn [firstn acts flat_map run_wlops snd elapsed fold_right length]. rewrite Z.add_0_r.
    split; auto. split; auto. split; [intros j Hj; lia|]. right. right. auto.
  - apply (kernel_turn (ev :: env) m s s0 now
      (fun s => wlock_loop q start env WKern (run_others (we_ops ev) s) (now + we_dt ev)) P). intros B Pa.
    apply ends_later; auto. inversion_clear Ho as [|? ? [_ Ho1] Ho2]. apply IH; auto.
    destruct P as (I & HF & L & HL).
    assert (Forall (wlop_ok mine) (we_ops ev)) as O1 by (eapply Forall_impl; [|exact Ho1]; cbn; tauto).
    assert (Forall (fun op => wlop_handle op <> h) (we_ops ev)) as O2 by (eapply Forall_impl; [|exact Ho1]; cbn; tauto).
    destruct (sim_others h (we_ops ev) s s0 m L O2) as (L1 & R1 & M1).
    split; [now apply run_winv|]. split; [unfold free; now rewrite M1|]. split; [exact L1|].
    rewrite M1. unfold locks_of. rewrite R1. exact HL.
Qed.

(** The whole call: refused at once if the stream has a lock there, otherwise as above. *)
Lemma call_spec env m s now : start = now -> winv mine m s -> Forall (others_ok mine h) env ->
  (free m /\ ends env m s now (wlock_file q env s now))
  \/ (~ free m /\ exists s', wlock_file q env s now = (Err ERuntime, s', now) /\ same_locks s' s).
Proof.
  intros Es I Ho. unfold wlock_file.
  destruct (try_locking_range (wk_reg s) (huid h) h len off sh) as [o r1] eqn:E.
  assert (wlock_loop q now env (WReg true) s now =
    match o with
    | Err e => (Err e, wk_set_reg s r1, now)
    | Ok true => wlock_loop q now env WKern (wk_set_reg s r1) now
    | Ok false => if wq_blocking q then match env with
            | [] => (Err EHang, wk_set_reg s r1, now)
            | ev :: env' => wlock_loop q now env' (WReg false) (run_others (we_ops ev) (wk_set_reg s r1)) (now + we_dt ev)
            end
          else match wcheck_timeout q (now - now) EPERM with
               | Some e => (Err e, wk_set_reg s r1, now)
               | None => match env with
            | [] => (Err EHang, wk_set_reg s r1, now)
            | ev :: env' => wlock_loop q now env' (WReg true) (run_others (we_ops ev) (wk_set_reg s r1)) (now + we_dt ev)
            end
               end
    end) as Er.
  { assert (register_once true (wk_pid s) (wk_reg s) (huid h) h len off sh = (o, r1)) as E'
      by (unfold register_once, check_forking; rewrite (wi_pid _ _ _ I), Z.eqb_refl; exact E).
    destruct env as [|ev env]; cbn [wlock_loop]; fold h len off sh; rewrite E'; destruct o as [[|]|e]; reflexivity. }
  rewrite Er. clear Er.
  destruct (try_locking_cases _ _ _ _ _ _ _ _ E) as (C & P & (e1 & Ee) & Hoth & _).
  rewrite (wi_pid _ _ _ I) in P.
  assert (forall x b, hd_covers x b <-> in_range (lk_start (rc h x)) (lk_end (rc h x)) b) as HC.
  { intros [[sh0 st0] n0] b. cbn [rc lk_start lk_end hd_covers]. symmetry. apply range_end_covers. }
  assert (forall x, lk_handle (rc h x) = h) as HH by (intros [[? ?] ?]; reflexivity).
  inversion C as [r1' Hfree HL X1 X2|r1' lk Hin Hc HL X1 X2|r1' lk Hin Hc HL X1 X2]; subst o r1'.
  - left. rewrite (wi_reg _ _ _ I) in Hfree, HL.
    assert (free m) as HF.
    { intros x Hx (b & Hb & Hb'). destruct (Hfree (rc h x) (in_map _ _ _ Hx)) as [N _]. apply N.
      split; [apply HH|]. exists b. split; [now apply HC|now apply range_end_covers]. }
    split; auto. rewrite <- Es at 2. apply kernel_spec; auto. split; auto. split; auto. split.
    + constructor; auto. split; cbn [wk_reg wk_set_reg]; [rewrite (wi_pid _ _ _ I); exact P|]. intros u Hu. now apply Hoth.
    + cbn [wk_reg wk_set_reg]. rewrite HL, map_app. reflexivity.
  - exfalso. rewrite (wi_reg _ _ _ I) in Hin. apply in_map_iff in Hin. destruct Hin as (x & <- & _).
    destruct Hc as [Hc _]. apply Hc. apply HH.
  - right. rewrite (wi_reg _ _ _ I) in Hin. apply in_map_iff in Hin. destruct Hin as (x & <- & Hx).
    destruct Hc as (_ & b & Hb & Hb'). split.
    + intros Fr. apply (Fr x Hx). exists b. split; [now apply HC|now apply range_end_covers].
    + eexists. split; [reflexivity|]. split; auto. intros h'. cbn [wk_reg wk_set_reg].
      destruct (Z.eq_dec h' h) as [->|Hh]; [exact HL|].
      rewrite Hoth; auto. intros X. apply huid_inj in X. auto.
Qed.
End Loop.

Lemma same_of_winv mine m a b : winv mine m a -> winv mine m b -> wk_locks a = wk_locks b -> same_locks a b.
Proof. intros Ia Ib E. split; auto. intros h. etransitivity; [apply (wi_reg _ _ _ Ia)|symmetry; apply (wi_reg _ _ _ Ib)]. Qed.
Lemma same_trans a b c : same_locks a b -> same_locks c b -> same_locks a c.
Proof. intros [A1 A2] [B1 B2]. split; [congruence|]. intros h. now rewrite A2, B2. Qed.

Lemma acts_ok mine h env : Forall (others_ok mine h) env -> forall k,
  Forall (wlop_ok mine) (acts (firstn k env)) /\ Forall (fun op => wlop_handle op <> h) (acts (firstn k env)).
Proof.
  intros Ho k. assert (Forall (fun op => wlop_ok mine op /\ wlop_handle op <> h) (acts (firstn k env))) as X.
  { apply Forall_forall. intros op Hop. apply in_flat_map in Hop. destruct Hop as (ev & Hev & Hop).
    assert (In ev env) as Hin by (rewrite <- (firstn_skipn k env); apply in_or_app; now left).
    rewrite Forall_forall in Ho. destruct (Ho ev Hin) as [_ Y]. rewrite Forall_forall in Y. now apply Y. }
  split; eapply Forall_impl; try exact X; cbn; tauto.
Qed.
Lemma others_keep ops h : Forall (fun op => wlop_handle op <> h) ops -> forall m s, fst (run_wlops ops m s) h = m h.
Proof.
  induction 1 as [|op ops Hop _ IH]; intros m s; cbn [run_wlops]; auto.
  destruct (run_wlop op s) as [x s1]. rewrite IH. destruct op, x; cbn [note wlop_handle] in *; auto; apply upd_other; auto.
Qed.

(** One attempt, when the stream has no lock there. *)
Lemma attempt mine q m s : mine (wq_h q) = true -> fits (wq_length q) (wq_off q) -> winv mine m s -> free q m ->
  let '(r, s2) := wlock_once (wq_h q) (wq_length q) (wq_off q) (wq_shared q) s in
  if blocked q s then r = Err (ELocking (code q s)) /\ same_locks s2 s else r = Ok tt.
Proof.
  intros Hm F I HF. unfold blocked, code.
  destruct (wlock_spec mine m s (wq_h q) (wq_length q) (wq_off q) (wq_shared q) I Hm F)
    as [(s2 & -> & _ & T & R & _)|(s2 & e & -> & N & W & E & X & _)].
  - now rewrite R, T.
  - destruct (refused s (mkWl (wq_h q) (wq_off q) (klen (wq_length q)) (wq_shared q))) eqn:R; cbn [orb].
    + split; [now rewrite X|]. now apply (same_of_winv mine m).
    + destruct (taken s (mkWl (wq_h q) (wq_off q) (klen (wq_length q)) (wq_shared q))) eqn:T.
      * split; [now rewrite X|]. now apply (same_of_winv mine m).
      * exfalso. apply N. auto.
Qed.

(** * C101 *)
Section C101.
Context (mine : Z -> bool) (pid : Z) (file : Z -> Z) (strict : bool).
(** The locks of the program and the system after [ops] and the first [j] events. *)
Definition at_time (ops : list wlop) (env : list wev) (j : nat) : (Z -> list wheld) * wlsys :=
  run_wlops (ops ++ acts (firstn j env)) (fun _ => []) (no_locks pid file strict).
(** A single attempt made then. *)
Definition one_try (q : wlreq) (ops : list wlop) (env : list wev) (j : nat) : res unit * wlsys :=
  wlock_once (wq_h q) (wq_length q) (wq_off q) (wq_shared q) (snd (at_time ops env j)).
Definition legal (q : wlreq) (ops : list wlop) (env : list wev) : Prop :=
  Forall (wlop_ok mine) ops /\ mine (wq_h q) = true /\ fits (wq_length q) (wq_off q)
  /\ Forall (others_ok mine (wq_h q)) env /\ 0 <= wq_spin q.

Lemma at_time_spec ops env j :
  at_time ops env j = run_wlops (acts (firstn j env)) (fst (at_time ops env 0)) (snd (at_time ops env 0)).
Proof. unfold at_time. cbn [firstn acts flat_map]. rewrite app_nil_r, run_app. now destruct (run_wlops ops _ _). Qed.

(** What the call does, in terms of single attempts. *)
Lemma c101_cases q ops env now : legal q ops env ->
  let '(r, s', now') := wlock_file q env (snd (at_time ops env 0)) now in
  (exists k, (k <= length env)%nat /\ now' = now + elapsed (firstn k env)
    /\ free q (fst (at_time ops env 0))
    /\ (forall j, (j < k)%nat -> exists c, fst (one_try q ops env j) = Err (ELocking c)
          /\ (wq_blocking q = true \/ wcheck_timeout q (elapsed (firstn j env)) c = None))
    /\ ((r = Ok tt /\ fst (one_try q ops env k) = Ok tt /\ same_locks s' (snd (one_try q ops env k)))
        \/ (exists e c, r = Err e /\ fst (one_try q ops env k) = Err (ELocking c) /\ wq_blocking q = false
              /\ wcheck_timeout q (now' - now) c = Some e
              /\ same_locks s' (snd (at_time ops env k)) /\ same_locks s' (snd (one_try q ops env k)))
        \/ (exists c, r = Err EHang /\ k = length env /\ fst (one_try q ops env k) = Err (ELocking c)
              /\ (wq_blocking q = true \/ wcheck_timeout q (now' - now) c = None))))
  \/ (r = Err ERuntime /\ now' = now /\ ~ free q (fst (at_time ops env 0)) /\ fst (one_try q ops env 0) = Err ERuntime
      /\ same_locks s' (snd (at_time ops env 0)) /\ same_locks s' (snd (one_try q ops env 0))).
Proof.
  intros (Ho & Hm & F & He & Hs).
  assert (forall j, winv mine (fst (at_time ops env j)) (snd (at_time ops env j))) as I.
  { intros j. apply run_winv; [|apply winv_start]. apply Forall_app. split; auto. now apply (acts_ok mine (wq_h q)). }
  assert (forall j, fst (at_time ops env j) (wq_h q) = fst (at_time ops env 0) (wq_h q)) as K.
  { intros j. rewrite (at_time_spec ops env j). apply others_keep. now apply (acts_ok mine (wq_h q)). }
  pose proof (call_spec mine q now Hm F Hs env _ _ now eq_refl (I 0%nat) He) as [(HF & X)|(NF & s' & -> & S)].
  - assert (forall j, let '(r, s2) := one_try q ops env j in
      if blocked q (snd (at_time ops env j)) then r = Err (ELocking (code q (snd (at_time ops env j)))) /\ same_locks s2 (snd (at_time ops env j))
      else r = Ok tt) as T.
    { intros j. apply (attempt mine q (fst (at_time ops env j))); auto. intros x Hx. rewrite K in Hx. now apply HF. }
    unfold ends in X. destruct (wlock_file q env (snd (at_time ops env 0)) now) as [[r s'] now'].
    destruct X as (k & Hk & Ht & Hj & X). left. exists k. split; auto. split; auto. split; auto.
    assert (forall j, run_wlops (acts (firstn j env)) (fst (at_time ops env 0)) (snd (at_time ops env 0)) = at_time ops env j) as E.
    { intros j. symmetry. apply at_time_spec. }
    rewrite !E in X. split.
    + intros j Hlt. specialize (Hj j Hlt). rewrite E in Hj. destruct Hj as [B P]. specialize (T j).
      destruct (one_try q ops env j) as [x s2]. rewrite B in T. destruct T as [-> _]. cbn [fst]. eexists. split; [reflexivity|].
      destruct P as [P|P]; auto. right. now replace (now + elapsed (firstn j env) - now) with (elapsed (firstn j env)) in P by lia.
    + specialize (T k). destruct X as [(-> & B & S)|[(e & -> & B & Hb & W & S)|(-> & Ek & B & P)]].
      * left. split; auto. unfold one_try in *. destruct (wlock_once _ _ _ _ _) as [x s2]. rewrite B in T. cbn [fst snd] in *. auto.
      * right. left. exists e. eexists. split; auto. destruct (one_try q ops env k) as [x s2]. rewrite B in T. destruct T as [-> S2].
        cbn [fst snd]. split; [reflexivity|]. split; auto. split; [exact W|]. split; auto. now apply (same_trans _ (snd (at_time ops env k))).
      * right. right. eexists. split; auto. split; auto. destruct (one_try q ops env k) as [x s2]. rewrite B in T. destruct T as [-> S2].
        cbn [fst]. split; [reflexivity|]. exact P.
  - right. split; auto. split; auto. split; auto. unfold one_try.
    destruct (wlock_spec mine _ _ (wq_h q) (wq_length q) (wq_off q) (wq_shared q) (I 0%nat) Hm F)
      as [(s2 & _ & HF & _)|(s2 & e & -> & _ & W & E & _ & X)]; [now elim NF|].
    cbn [fst snd]. rewrite (X NF). split; auto. split; auto.
    apply (same_trans _ (snd (at_time ops env 0))); auto. now apply (same_of_winv mine (fst (at_time ops env 0))).
Qed.
End C101.

(** A call that returns or raises does what one attempt made at that time does (see C60_lock): the
    attempts before it fail, and whatever was done for them is undone. *)
Theorem C101_like_one_attempt_partial : forall mine pid file strict q ops env now, legal mine q ops env ->
  let '(r, s', now') := wlock_file q env (snd (run_wlops ops (fun _ => []) (no_locks pid file strict))) now in
  r <> Err EHang ->
  exists k, (k <= length env)%nat /\ now' = now + elapsed (firstn k env)
    /\ (forall j, (j < k)%nat -> fst (one_try pid file strict q ops env j) <> Ok tt)
    /\ same_locks s' (snd (one_try pid file strict q ops env k))
    /\ (r = Ok tt <-> fst (one_try pid file strict q ops env k) = Ok tt).
Proof.
  intros mine pid file strict q ops env now Hl. pose proof (c101_cases mine pid file strict q ops env now Hl) as C.
  unfold at_time at 1 in C. cbn [firstn acts flat_map] in C. rewrite app_nil_r in C.
  destruct (wlock_file q env _ now) as [[r s'] now']. intros Nh.
  destruct C as [(k & Hk & Ht & _ & Hj & X)|(-> & -> & _ & E & _ & S)].
  - exists k. split; auto. split; auto. split; [intros j Hlt; destruct (Hj j Hlt) as (c & -> & _); discriminate|].
    destruct X as [(-> & E & S)|[(e & c & -> & E & _ & _ & _ & S)|(c & -> & _)]]; [| |now elim Nh].
    + split; auto. split; auto.
    + split; auto. rewrite E. split; discriminate.
  - exists 0%nat. split; [lia|]. split; [cbn; lia|]. split; [intros j Hlt; lia|]. split; auto. rewrite E. split; discriminate.
Qed.

(** With a timeout: LockingException not before it, and at the end of the first sleep that reaches it.
    A call still waiting has not reached it.  RuntimeError only for a range the stream has
    itself locked, at once. *)
Theorem C101_timeout : forall mine pid file strict q ops env now t, legal mine q ops env -> wq_timeout q = Some t ->
  let '(r, s', now') := wlock_file q env (snd (run_wlops ops (fun _ => []) (no_locks pid file strict))) now in
  r = Ok tt
  \/ (exists c, r = Err (ELocking c) /\ t <= now' - now /\ (forall j, now + elapsed (firstn j env) < now' -> elapsed (firstn j env) < t))
  \/ (r = Err ERuntime /\ now' = now /\ fst (one_try pid file strict q ops env 0) = Err ERuntime)
  \/ (r = Err EHang /\ elapsed env < t).
Proof.
  intros mine pid file strict q ops env now t Hl Ht. pose proof (c101_cases mine pid file strict q ops env now Hl) as C.
  unfold at_time at 1 in C. cbn [firstn acts flat_map] in C. rewrite app_nil_r in C.
  destruct (wlock_file q env _ now) as [[r s'] now'].
  assert (wq_blocking q = false) as Hb by (unfold wq_blocking; now rewrite Ht).
  assert (forall d c, wcheck_timeout q d c = if t <=? d then Some (ELocking c) else None) as W.
  { intros d c. unfold wcheck_timeout. rewrite Ht. destruct (t <=? d); auto. destruct Hl as (_ & _ & _ & _ & Hs).
    destruct (Z.ltb_spec (wq_spin q) 0); auto. lia. }
  assert (Hdt : forall j k, (k <= j)%nat -> elapsed (firstn k env) <= elapsed (firstn j env)).
  { destruct Hl as (_ & _ & _ & He & _). clear - He. intros j k. revert j k env He.
    induction j as [|j IH]; intros [|k] env He Hle; try lia.
    - destruct env as [|ev env]; cbn; try lia. inversion_clear He as [|? ? [X _] Y]. specialize (IH 0%nat env Y). cbn in IH. unfold elapsed in *. lia.
    - destruct env as [|ev env]; cbn; try lia. inversion_clear He as [|? ? [X _] Y]. specialize (IH k env Y). unfold elapsed in *. lia. }
  destruct C as [(k & Hk & Hn & _ & Hj & X)|(-> & -> & _ & E & _ & S)]; [|right; right; left; auto].
  destruct X as [(-> & E & S)|[(e & c & -> & E & _ & Wc & _)|(c & -> & -> & E & [P|P])]]; auto; [| congruence|].
  - right. left. rewrite W in Wc. destruct (Z.leb_spec t (now' - now)); [|discriminate]. injection Wc as <-.
    exists c. split; auto. split; auto. intros j Hlate. destruct (Compare_dec.le_lt_dec k j) as [Hle|Hlt].
    + specialize (Hdt j k Hle). lia.
    + destruct (Hj j Hlt) as (c' & _ & [P|P]); [congruence|]. rewrite W in P.
      destruct (Z.leb_spec t (elapsed (firstn j env))); [discriminate|lia].
  - right. right. right. split; auto. rewrite W in P. destruct (Z.leb_spec t (now' - now)); [discriminate|].
    rewrite firstn_all in Hn. lia.
Qed.

(** Without a timeout: never LockingException; RuntimeError for a range the stream has itself locked,
    or when the enforced timeout is over. *)
Theorem C101_no_timeout : forall mine pid file strict q ops env now, legal mine q ops env -> wq_timeout q = None ->
  let '(r, s', now') := wlock_file q env (snd (run_wlops ops (fun _ => []) (no_locks pid file strict))) now in
  r = Ok tt \/ r = Err EHang
  \/ (r = Err ERuntime
      /\ ((now' = now /\ fst (one_try pid file strict q ops env 0) = Err ERuntime)
         \/ exists t, wq_enforced q = Some t /\ t <= now' - now)).
Proof.
  intros mine pid file strict q ops env now Hl Ht. pose proof (c101_cases mine pid file strict q ops env now Hl) as C.
  unfold at_time at 1 in C. cbn [firstn acts flat_map] in C. rewrite app_nil_r in C.
  destruct (wlock_file q env _ now) as [[r s'] now'].
  destruct C as [(k & Hk & Hn & _ & Hj & X)|(-> & -> & _ & E & _ & S)]; [|right; right; auto].
  destruct X as [(-> & E & S)|[(e & c & -> & E & Hb & Wc & _)|(c & -> & _)]]; auto.
  right. right. destruct Hl as (_ & _ & _ & _ & Hs).
  unfold wcheck_timeout in Wc. rewrite Ht in Wc. destruct (Z.ltb_spec (wq_spin q) 0); [lia|].
  destruct (wq_enforced q) as [t|] eqn:En; [|discriminate]. destruct (Z.leb_spec t (now' - now)); [|discriminate].
  injection Wc as <-. split; auto. right. exists t. auto.
Qed.

(** A failed call leaves no trace: the locks are those the others have left. *)
Theorem C101_failed_no_trace : forall mine pid file strict q ops env now, legal mine q ops env ->
  let '(r, s', now') := wlock_file q env (snd (run_wlops ops (fun _ => []) (no_locks pid file strict))) now in
  r <> Ok tt -> r <> Err EHang ->
  exists k, (k <= length env)%nat /\ now' = now + elapsed (firstn k env)
    /\ same_locks s' (snd (run_wlops (ops ++ acts (firstn k env)) (fun _ => []) (no_locks pid file strict))).
Proof.
  intros mine pid file strict q ops env now Hl. pose proof (c101_cases mine pid file strict q ops env now Hl) as C.
  unfold at_time at 1 in C. cbn [firstn acts flat_map] in C. rewrite app_nil_r in C.
  destruct (wlock_file q env _ now) as [[r s'] now']. intros N1 N2.
  destruct C as [(k & Hk & Hn & _ & Hj & X)|(-> & -> & _ & E & S & _)].
  - exists k. split; auto. split; auto. destruct X as [(-> & _)|[(e & c & -> & E & Hb & Wc & S & _)|(c & -> & _)]]; tauto.
  - exists 0%nat. split; [lia|]. split; [cbn; lia|]. exact S.
Qed.

(** The lock is taken at the first turn where the range is free, if it comes before the timeout. *)
Theorem C101_available : forall mine pid file strict q ops env now k, legal mine q ops env ->
  (k <= length env)%nat -> fst (one_try pid file strict q ops env k) = Ok tt ->
  (forall j, (j < k)%nat -> fst (one_try pid file strict q ops env j) <> Ok tt) ->
  (forall j t, (j < k)%nat -> wq_timeout q = Some t \/ (wq_timeout q = None /\ wq_enforced q = Some t) ->
     elapsed (firstn j env) < t) ->
  let '(r, s', now') := wlock_file q env (snd (run_wlops ops (fun _ => []) (no_locks pid file strict))) now in
  r = Ok tt /\ now' = now + elapsed (firstn k env) /\ same_locks s' (snd (one_try pid file strict q ops env k)).
Proof.
  intros mine pid file strict q ops env now k Hl Hk Hok Hbefore Htime.
  pose proof (c101_cases mine pid file strict q ops env now Hl) as C.
  assert (free q (fst (at_time pid file strict ops env 0))) as HF.
  { destruct Hl as (Ho & Hm & F & He & Hs).
    assert (winv mine (fst (at_time pid file strict ops env k)) (snd (at_time pid file strict ops env k))) as I.
    { apply run_winv; [|apply winv_start]. apply Forall_app. split; auto. now apply (acts_ok mine (wq_h q)). }
    assert (fst (at_time pid file strict ops env k) (wq_h q) = fst (at_time pid file strict ops env 0) (wq_h q)) as K.
    { rewrite (at_time_spec pid file strict ops env k). apply others_keep. now apply (acts_ok mine (wq_h q)). }
    unfold free. rewrite <- K. unfold one_try in Hok.
    destruct (wlock_spec mine _ _ (wq_h q) (wq_length q) (wq_off q) (wq_shared q) I Hm F)
      as [(s2 & _ & HF & _)|(s2 & e & E & _)]; auto. rewrite E in Hok. discriminate. }
  unfold at_time at 1 in C. cbn [firstn acts flat_map] in C. rewrite app_nil_r in C.
  destruct (wlock_file q env _ now) as [[r s'] now'].
  destruct C as [(k' & Hk' & Hn & _ & Hj & X)|(_ & _ & NF & _)]; [|now elim NF].
  destruct (Compare_dec.lt_eq_lt_dec k' k) as [[Hlt| ->]|Hgt].
  - exfalso. destruct X as [(_ & E & _)|[(e & c & -> & E & Hb & Wc & _)|(c & _ & -> & _)]]; [|  |lia].
    + now apply (Hbefore k' Hlt).
    + unfold wcheck_timeout in Wc. destruct Hl as (_ & _ & _ & _ & Hs).
      destruct (Z.ltb_spec (wq_spin q) 0); [lia|].
      destruct (wq_timeout q) as [t|] eqn:Et.
      * specialize (Htime k' t Hlt (or_introl eq_refl)). destruct (Z.leb_spec t (now' - now)); [lia|discriminate].
      * destruct (wq_enforced q) as [t|] eqn:Ee; [|discriminate].
        specialize (Htime k' t Hlt (or_intror (conj eq_refl eq_refl))). destruct (Z.leb_spec t (now' - now)); [lia|discriminate].
  - destruct X as [(-> & _ & S)|[(e & c & -> & E & _)|(c & _ & _ & E & _)]]; [auto| |]; congruence.
  - exfalso. destruct (Hj k Hgt) as (c & E & _). congruence.
Qed.

(** timeout=0 is the single attempt of C59 and C60. *)
Theorem C101_timeout_zero : forall q env s now, wq_timeout q = Some 0 ->
  wlock_file q env s now = (wlock_once (wq_h q) (wq_length q) (wq_off q) (wq_shared q) s, now).
Proof.
  intros q env s now Ht.
  assert (wq_blocking q = false) as Hb by (unfold wq_blocking; now rewrite Ht).
  assert (forall c, wcheck_timeout q (now - now) c = Some (ELocking c)) as W.
  { intros c. unfold wcheck_timeout. rewrite Ht, Z.sub_diag. reflexivity. }
  unfold wlock_file, wlock_once. destruct env as [|ev env]; cbn [wlock_loop]; rewrite Hb; cbn [andb];
    (destruct (register_once true (wk_pid s) (wk_reg s) (huid (wq_h q)) (wq_h q) (wq_length q) (wq_off q) (wq_shared q)) as [[[|]|e] r1];
     [|now rewrite W|reflexivity]);
    (destruct (win_file_lock (wq_h q) (wq_length q) (wq_off q) (wq_shared q) (wk_set_reg s r1)) as [[[]|e] s2]; [reflexivity|]);
    destruct e; rewrite ?W;
    destruct (unregister_file_lock (wk_pid s2) (wk_reg s2) (huid (wq_h q)) (wq_h q) (wq_length q) (wq_off q)) as [[[b|e3] r3] n3]; reflexivity.
Qed.

(** False that lock_file() returns once nobody has a lock in the range: every error of the system is
    taken for a lock of somebody else.  On a system that refuses ranges going beyond 2^64 (see
    C60_lock_to_infinity_refuted), lock_file(offset=10) waits for ever for a file that nobody
    locks, and lock_file(timeout=t, offset=10) waits until the timeout. *)
Theorem C101_returns_when_free_refuted : forall pid file q env now,
  wq_length q = None -> 1 < wq_off q < 2 ^ 64 -> 0 <= wq_spin q -> wq_timeout q = None -> wq_enforced q = None ->
  Forall (others_ok (fun h => h =? wq_h q) (wq_h q)) env ->
  fst (fst (wlock_file q env (no_locks pid file true) now)) = Err EHang
  /\ snd (wlock_file q env (no_locks pid file true) now) = now + elapsed env.
Proof.
  intros pid file q env now Hlen Hoff Hs Ht He Ho.
  assert (legal (fun h => h =? wq_h q) q [] env) as Hl.
  { split; auto. split; [apply Z.eqb_refl|]. split; [rewrite Hlen; split; [lia|auto]|]. auto. }
  pose proof (c101_cases _ pid file true q [] env now Hl) as C.
  assert (forall j, refused (snd (at_time pid file true [] env j)) (mkWl (wq_h q) (wq_off q) (klen (wq_length q)) (wq_shared q)) = true) as R.
  { intros j. unfold refused, at_time. rewrite run_strict. cbn [wk_strict no_locks andb wl_off wl_len].
    rewrite Hlen. cbn [klen]. apply Z.ltb_lt. lia. }
  change (snd (at_time pid file true [] env 0)) with (no_locks pid file true) in C.
  destruct (wlock_file q env (no_locks pid file true) now) as [[r s'] now']. cbn [fst snd].
  assert (forall j, fst (one_try pid file true q [] env j) <> Ok tt) as N.
  { intros j. destruct Hl as (_ & Hm & F & He' & _).
    assert (winv (fun h => h =? wq_h q) (fst (at_time pid file true [] env j)) (snd (at_time pid file true [] env j))) as I.
    { apply run_winv; [|apply winv_start]. cbn [app]. now apply (acts_ok _ (wq_h q)). }
    unfold one_try.
    destruct (wlock_spec _ _ _ (wq_h q) (wq_length q) (wq_off q) (wq_shared q) I Hm F) as [(s2 & _ & _ & _ & X & _)|(s2 & e & -> & _)].
    - rewrite R in X. discriminate.
    - discriminate. }
  destruct C as [(k & Hk & Hn & _ & Hj & X)|(_ & _ & NF & _)]; [|elim NF; intros x []].
  destruct X as [(_ & E & _)|[(e & c & _ & _ & Hb & _)|(c & -> & -> & _)]]; [now apply N in E| |].
  - unfold wq_blocking in Hb. rewrite Ht, He in Hb. discriminate.
  - rewrite firstn_all in Hn. auto.
Qed.

(** Non-vacuity: another process has bytes 0-9 and releases them after two sleeps. *)
Definition c101_env : list wev := [mkWev 1 []; mkWev 1 [OUnlock 7 0 10]; mkWev 1 []].
Definition c101_call (t : option Z) : wlreq := mkWq 5 (Some 4) 2 false t None 1.
Example C101_example :
  let s := snd (run_wlops [OLock 7 0 10 false] (fun _ => []) (no_locks 1 (fun _ => 0) true)) in
  (let '(r, s', now') := wlock_file (c101_call (Some 10)) c101_env s 100 in r = Ok tt /\ now' = 102 /\ wk_locks s' = [mkWl 5 2 4 false])
  /\ (let '(r, s', now') := wlock_file (c101_call None) c101_env s 100 in r = Ok tt /\ now' = 102)
  /\ (let '(r, s', now') := wlock_file (c101_call (Some 1)) c101_env s 100 in
      r = Err (ELocking 13) /\ now' = 101 /\ wk_locks s' = [mkWl 7 0 10 false])
  /\ legal (fun h => h =? 5) (c101_call None) [OLock 7 0 10 false] c101_env.
Proof.
  split; [vm_compute; auto|]. split; [vm_compute; auto|]. split; [vm_compute; auto|].
  split; [repeat constructor|]. split; [reflexivity|]. split; [split; cbn; lia|]. split; [|cbn; lia].
  repeat constructor; cbn; lia.
Qed.
Print Assumptions C101_like_one_attempt_partial.
Print Assumptions C101_timeout.
Print Assumptions C101_no_timeout.
Print Assumptions C101_failed_no_trace.
Print Assumptions C101_available.
Print Assumptions C101_timeout_zero.
Print Assumptions C101_returns_when_free_refuted.
