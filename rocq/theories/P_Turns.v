(** One turn of a lock call on a whole file, and the unlock call: what they do to the tables. *)
From Coq Require Import ZArith Ascii String List Bool Lia.
From Verif Require Import M_Base M_Modes M_Registry M_Kernel M_World M_Raw M_Buffered M_Waiting S_Bytes S_Raw S_Locks S_LockFile
  P_Bytes P_Raw P_Registry P_Kernel P_Close P_Frame P_Lock P_LockFile.
Import ListNotations.
Open Scope Z_scope.
Open Scope list_scope.

(** * lock_file() is its turns *)
Lemma loop_turn f q env ph w : lock_loop f q env ph w
  = match lock_turn f q ph w with
    | (TDone r, w') => (r, w')
    | (TWait ph', w') => match env with
                         | [] => (Err EHang, w')
                         | ev :: env' => lock_loop f q env' ph' (set_env (apply_env (uid_of f) (fd_of f) ev w') env')
                         end
    end.
Proof.
  rewrite lock_loop_eq.
  assert (Ef : forall r e w, l_fail f q r e w = match turn_fail f q r e w with (TDone r, w') => (r, w') | (TWait p, w') => l_wait f q env p w' end).
  { intros r e w1. unfold l_fail, turn_fail. destruct r; [|reflexivity]. destruct (unregister f q w1) as [[]]; reflexivity. }
  assert (Es : forall n e r w, l_sleep f q env n e r w = match turn_sleep f q n e r w with (TDone r, w') => (r, w') | (TWait p, w') => l_wait f q env p w' end).
  { intros n e r w1. unfold l_sleep, turn_sleep. destruct (check_timeout _ _ _ _); [apply Ef|reflexivity]. }
  assert (Ea : forall w, l_attempt f q env w = match turn_attempt f q w with (TDone r, w') => (r, w') | (TWait p, w') => l_wait f q env p w' end).
  { intros w1. unfold l_attempt, turn_attempt. destruct (lock_attempt _ _ _ _ _) as [[[]|]]; try reflexivity; destruct (low_level_blocking f q); auto. }
  assert (Ek : forall w, l_kern f q env w = match turn_kern f q w with (TDone r, w') => (r, w') | (TWait p, w') => l_wait f q env p w' end).
  { intros w1. unfold l_kern, turn_kern. destruct (lock_pre _ _ _ _) as [[|[]]]; auto. }
  assert (Er : forall b w, l_register f q env b w = match turn_register f q b w with (TDone r, w') => (r, w') | (TWait p, w') => l_wait f q env p w' end).
  { intros b w1. unfold l_register, turn_register. destruct (register_once _ _ _ _ _ _ _ _) as [[[]|]]; auto.
    destruct (low_level_blocking f q); auto. destruct (wait_count _ _ _) as [[]]; reflexivity. }
  unfold lock_turn. destruct ph; auto.
  destruct (wait_count _ _ _) as [[]]; auto.
Qed.

(** * What a turn does *)
Lemma lock_attempt_eq u sh lo n w : lock_attempt u sh lo n w
  = match ksetlk (w_kern w) (w_pid w) u sh lo (kend lo n) with
    | Some K => (Ok true, set_kern w K) | None => (Ok false, w) end.
Proof. unfold lock_attempt. destruct (ksetlk _ _ _ _ _ _); reflexivity. Qed.

(** The call leaves everything alone but the lock tables and the outcomes consumed. *)
Record locking_only (w w' : world) : Prop := mkLO {
  lo_names : w_names w' = w_names w;
  lo_fds : forall fd, w_fds w' fd = w_fds w fd;
  lo_inodes : forall v, w_inodes w' v = w_inodes w v;
  lo_pid : w_pid w' = w_pid w;
  lo_env : w_env w' = w_env w;
  lo_io : incl (w_io w') (w_io w) }.
Lemma locking_only_refl w : locking_only w w.
Proof. constructor; auto using incl_refl. Qed.
Lemma locking_only_trans a b c : locking_only a b -> locking_only b c -> locking_only a c.
Proof.
  intros [] []. constructor; try congruence.
  eapply incl_tran; eauto.
Qed.
Lemma lo_set_reg w r : locking_only w (set_reg w r).
Proof. constructor; auto using incl_refl. Qed.
Lemma lo_set_io w : locking_only w (set_io w (tl (w_io w))).
Proof. constructor; auto. apply incl_tl_refl. Qed.
Lemma lo_set_kern w K : locking_only w (set_kern w K).
Proof. constructor; auto using incl_refl. Qed.

Lemma lock_pre_io fd sh off w r w' : lock_pre fd sh off w = (r, w') -> w' = w \/ w' = set_io w (tl (w_io w)).
Proof.
  unfold lock_pre, bind, get_fd. destruct (w_fds w fd) as [o|]; [|intros [= _ <-]; auto].
  destruct (w_inodes w (o_uid o)) as [i|]; [|intros [= _ <-]; auto].
  rewrite next_io_eq. unfold ret, raise.
  destruct (hd IoFull (w_io w)); [| |intros [= _ <-]; auto]; (destruct (off <? 0); [intros [= _ <-]; auto|]);
    (destruct sh; [destruct (negb (o_rd o))|destruct (negb (o_wr o))]); intros [= _ <-]; auto.
Qed.

Lemma delete_mine l h m : filter (fun lk => lk_handle lk =? h) l = [mkLock h m 0 None] ->
  exists l', delete_match l h 0 None = Some l' /\ filter (fun lk => lk_handle lk =? h) l' = []
    /\ forall h', h' <> h -> filter (fun lk => lk_handle lk =? h') l' = filter (fun lk => lk_handle lk =? h') l.
Proof.
  intros M. destruct (delete_match l h 0 None) as [l'|] eqn:E.
  - exists l'. split; [reflexivity|]. destruct (delete_match_split _ _ _ _ _ E) as (l1 & lk & l2 & -> & -> & Hh & _ & _ & _).
    rewrite filter_app' in M. cbn [filter] in M. rewrite (proj2 (Z.eqb_eq _ _) Hh) in M.
    assert (filter (fun lk => lk_handle lk =? h) l1 = [] /\ filter (fun lk => lk_handle lk =? h) l2 = []) as [M1 M2].
    { destruct (filter _ l1) as [|a l3]; [injection M as _ M; auto|]. destruct l3; discriminate. }
    split; [rewrite filter_app', M1, M2; reflexivity|]. intros h' Hn. rewrite !filter_app'. cbn [filter].
    destruct (Z.eqb_spec (lk_handle lk) h'); [congruence|reflexivity].
  - exfalso. assert (X : In (mkLock h m 0 None) l).
    { assert (Y : In (mkLock h m 0 None) (filter (fun lk => lk_handle lk =? h) l)) by (rewrite M; now left).
      apply filter_In in Y. tauto. }
    apply (delete_match_none _ _ _ _ E _ X). auto.
Qed.


(** The registry is the process's own, and has an entry for the file. *)
Definition settled (w : world) (u : uid) : Prop := r_pid (w_reg w) = w_pid w /\ r_map (w_reg w) u <> None.
Lemma table_settled w u : table w u <> [] -> settled w u.
Proof.
  unfold table, registry_of, check_forking, settled. destruct (Z.eqb_spec (w_pid w) (r_pid (w_reg w))) as [E|E].
  - intros H. split; [auto|]. intros X. rewrite X in H. apply H; reflexivity.
  - cbn. intros H. exfalso. apply H; reflexivity.
Qed.
Lemma delete_last l h m : (forall lk, In lk l -> ~ (lk_handle lk = h /\ lk_start lk = 0 /\ lk_end lk = None)) ->
  delete_match (l ++ [mkLock h m 0 None]) h 0 None = Some l.
Proof.
  induction l as [|x l IH]; intros H; cbn [app delete_match].
  - cbn. now rewrite Z.eqb_refl.
  - destruct (_ && _ && _) eqn:E.
    + exfalso. apply (H x (or_introl eq_refl)). rewrite !andb_true_iff in E. destruct E as [[E1 E2] E3].
      apply Z.eqb_eq in E1, E2. split; auto. split; auto. destruct (lk_end x); [discriminate|reflexivity].
    + rewrite IH; auto. intros lk Hl. apply H. now right.
Qed.

Section Turn.
Variables (f : rawio) (q : lockreq).
Notation u := (uid_of f).
Notation fd := (fd_of f).
Notation rec := (mkLock (fd_of f) (q_shared q) 0 None).
Notation own L := (filter (fun lk => lk_handle lk =? fd) L).
Hypothesis Hoff : q_off q = 0.
Hypothesis Hlen : q_length q = None.

(** What giving up will take away, and what it will leave. *)
Definition undoes (w : world) (M : list lockrec) : Prop :=
  exists l', delete_match (table w u) fd 0 None = Some l' /\ own l' = M
    /\ forall h, h <> fd -> filter (fun lk => lk_handle lk =? h) l' = filter (fun lk => lk_handle lk =? h) (table w u).
Lemma undoes_settled w M : undoes w M -> settled w u.
Proof. intros (l' & D & _). apply table_settled. intros X. rewrite X in D. discriminate. Qed.

(** The result of a turn from the world [w] where the lock is recorded. *)
Record kern_res (M : list lockrec) (w : world) (t : turn) (w' : world) : Prop := mkKR {
  kr_lo : locking_only w w';
  kr_pending : pending w' u = pending w u;
  kr_others : forall h, h <> fd -> mine w' u h = mine w u h;
  kr_settled : settled w' u;
  kr_case : match t with
            | TDone (Ok _) => mine w' u fd = mine w u fd
                /\ ksetlk (w_kern w) (w_pid w) u (q_shared q) 0 None = Some (w_kern w')
            | TDone (Err _) => mine w' u fd = M /\ w_kern w' = w_kern w
            | TWait ph => mine w' u fd = mine w u fd /\ w_kern w' = w_kern w /\ is_reg ph = true
            end }.

Lemma kern_io M w t w' : kern_res M (set_io w (tl (w_io w))) t w' -> kern_res M w t w'.
Proof.
  intros [L P O S C]. constructor; auto.
  eapply locking_only_trans; [apply lo_set_io|exact L].
Qed.
Lemma undoes_io w M : undoes w M -> undoes (set_io w (tl (w_io w))) M.
Proof. intros H. exact H. Qed.

Lemma fail_alone e M w t w' : undoes w M -> turn_fail f q true e w = (t, w') -> kern_res M w t w'.
Proof.
  intros U. pose proof (undoes_settled _ _ U) as [S1 S2]. destruct U as (l' & D & Ml & Oth).
  unfold turn_fail, unregister, unregister_file_lock. rewrite Hoff, Hlen.
  unfold table, registry_of in D, Oth. rewrite (check_forking_id _ S1) in D, Oth. rewrite (check_forking_id _ S1).
  unfold try_unlocking_range. destruct (r_map (w_reg w) u) as [en|] eqn:Ee; [|congruence]. cbn [range_end]. rewrite D.
  intros [= <- <-]. set (r' := reg_set _ _ _).
  assert (Rp : r_pid r' = w_pid w) by exact S1.
  assert (R : registry_of (set_reg w r') = r') by (apply registry_of_id; exact Rp).
  assert (Rm : r_map r' u = Some (mkEntry l' (e_data en) (e_waiting en))) by apply reg_set_eq.
  assert (R0 : registry_of w = w_reg w) by (apply registry_of_id; exact S1).
  constructor.
  - apply lo_set_reg.
  - unfold pending. rewrite R, Rm, R0, Ee. reflexivity.
  - intros h Hh. unfold mine, table. rewrite R, Rm, R0, Ee. cbn [e_locks]. auto.
  - split; [exact Rp|cbn [w_reg set_reg]; rewrite Rm; discriminate].
  - split; [|reflexivity]. unfold mine, table. rewrite R, Rm. exact Ml.
Qed.
Lemma wait_alone M w ph : undoes w M -> is_reg ph = true -> kern_res M w (TWait ph) w.
Proof. intros U Hp. constructor; auto using locking_only_refl. apply (undoes_settled _ _ U). Qed.
Lemma sleep_alone e M w t w' : undoes w M -> turn_sleep f q PhKern e true w = (t, w') -> kern_res M w t w'.
Proof.
  intros U. unfold turn_sleep. destruct (check_timeout _ _ _ _); [now apply fail_alone|].
  intros [= <- <-]. now apply wait_alone.
Qed.
Lemma attempt_alone M w t w' : undoes w M -> turn_attempt f q w = (t, w') -> kern_res M w t w'.
Proof.
  intros U. unfold turn_attempt. rewrite lock_attempt_eq, kend_range, Hoff, Hlen. cbn [range_end].
  destruct (ksetlk _ _ _ _ _ _) as [K|] eqn:EK.
  - intros [= <- <-]. constructor; auto using lo_set_kern. apply (undoes_settled _ _ U).
  - destruct (low_level_blocking f q); [|now apply sleep_alone].
    intros [= <- <-]. now apply wait_alone.
Qed.
Lemma kern_alone M w t w' : undoes w M -> turn_kern f q w = (t, w') -> kern_res M w t w'.
Proof.
  intros U. unfold turn_kern. destruct (lock_pre _ _ _ _) as [rp wp] eqn:Ep.
  pose proof (lock_pre_io _ _ _ _ _ _ Ep) as Hio. intros H.
  assert (X : forall G : Prop -> Prop, (undoes wp M -> kern_res M wp t w') -> kern_res M w t w').
  { intros _ Y. destruct Hio as [->| ->]; [auto|]. apply kern_io. apply Y, undoes_io, U. }
  apply (X (fun p => p)). intros U'. clear X. destruct rp as [v|e]; [now apply (attempt_alone M)|].
  destruct e; first [now apply (sleep_alone _ M) in H | now apply (fail_alone _ M) in H].
Qed.

(** Nothing recorded forbids the lock. *)
Definition unopposed (w : world) : Prop := forall lk, In lk (table w u) ->
  ~ conflicts_same lk fd 0 None /\ ~ conflicts_other lk fd 0 None (q_shared q).
Record turn_res (ph : phase) (w : world) (t : turn) (w' : world) : Prop := mkTR {
  tr_lo : locking_only w w';
  tr_pending : pending w' u = pending w u;
  tr_others : forall h, h <> fd -> mine w' u h = mine w u h;
  tr_settled : settled w u \/ ph = PhReg -> settled w' u;
  tr_case : match t with
            | TDone (Ok _) => ksetlk (w_kern w) (w_pid w) u (q_shared q) 0 None = Some (w_kern w')
                /\ if is_reg ph then mine w' u fd = mine w u fd
                   else mine w' u fd = mine w u fd ++ [rec] /\ unopposed w
            | TDone (Err _) => w_kern w' = w_kern w /\ mine w' u fd = (if is_reg ph then [] else mine w u fd)
            | TWait ph' => w_kern w' = w_kern w
                /\ if is_reg ph then is_reg ph' = true /\ mine w' u fd = mine w u fd
                   else if is_reg ph' then mine w' u fd = mine w u fd ++ [rec] /\ unopposed w
                   else mine w' u fd = mine w u fd
            end }.

Lemma count_alone d w r w1 : wait_count f d w = (r, w1) ->
  locking_only w w1 /\ w_kern w1 = w_kern w /\ (settled w u -> settled w1 u /\ r = Ok tt) /\
  (r_pid (w_reg w) = w_pid w -> r_pid (w_reg w1) = w_pid w1 /\ table w1 u = table w u /\ pending w1 u = pending w u).
Proof.
  unfold wait_count, add_waiting. destruct (r_map (w_reg w) u) as [en|] eqn:Ee; intros [= <- <-].
  - split; [apply lo_set_reg|]. split; [reflexivity|]. set (r' := reg_set _ _ _).
    assert (Rm : r_map r' u = Some (mkEntry (e_locks en) (e_data en) (e_waiting en + d))) by apply reg_set_eq.
    split; [intros [S1 S2]; split; [split; [exact S1|cbn [w_reg set_reg]; rewrite Rm; discriminate]|reflexivity]|].
    intros S1. split; [exact S1|]. assert (R : registry_of (set_reg w r') = r') by (apply registry_of_id; exact S1).
    unfold table, pending. rewrite R, Rm, (registry_of_id _ S1), Ee. auto.
  - split; [apply locking_only_refl|]. split; [reflexivity|]. split; [intros [_ S2]; congruence|]. auto.
Qed.

Lemma sleep_reg n e w t w' : turn_sleep f q PhReg n e w = (t, w') -> e = false ->
  w' = w /\ match t with TDone (Ok _) => False | TDone (Err _) => True | TWait ph => ph = PhReg end.
Proof.
  intros H ->. unfold turn_sleep, turn_fail in H. destruct (check_timeout _ _ _ _); injection H as <- <-; auto.
Qed.

Lemma register_alone first w t w' : (first = false -> r_pid (w_reg w) = w_pid w) -> turn_register f q first w = (t, w') ->
  turn_res PhReg w t w'.
Proof.
  intros Hf. unfold turn_register, register_once.
  assert (Er : (if first then check_forking (w_pid w) (w_reg w) else w_reg w) = registry_of w).
  { destruct first; [reflexivity|]. symmetry. now apply registry_of_id, Hf. }
  rewrite Er, Hoff, Hlen.
  destruct (try_locking_range _ _ _ _ _ _) as [o reg] eqn:E.
  destruct (try_locking_cases _ _ _ _ _ _ _ _ E) as (C & Hp & (en & Ee) & _ & Hd). cbn [range_end] in C.
  assert (Rp : r_pid reg = w_pid w) by (rewrite Hp; apply registry_of_pid).
  assert (R : registry_of (set_reg w reg) = reg) by (apply registry_of_id; exact Rp).
  assert (Pe : pending (set_reg w reg) u = pending w u).
  { unfold pending at 1. rewrite R. apply (Hd u). }
  assert (Se : settled (set_reg w reg) u) by (split; [exact Rp|cbn [w_reg set_reg]; rewrite Ee; discriminate]).
  pose proof (lo_set_reg w reg) as L0.
  inversion C as [r' Hfree HL|r' lk Hin Hc HL|r' lk Hin Hc HL]; subst o r'.
  - assert (Ht : table (set_reg w reg) u = table w u ++ [rec]) by (unfold table at 1; rewrite R; exact HL).
    assert (Hfree' : unopposed w) by exact Hfree.
    intros H. assert (U : undoes (set_reg w reg) (mine w u fd)).
    { exists (table w u). rewrite Ht. split; [|split; [reflexivity|]].
      - apply delete_last. intros lk Hlk (A1 & A2 & A3). destruct (Hfree' lk Hlk) as [B _]. apply B.
        split; [exact A1|]. rewrite A2, A3. exists 0. split; split; auto; lia.
      - intros h Hh. rewrite filter_app'. cbn [filter lk_handle]. destruct (Z.eqb_spec fd h); [congruence|]. now rewrite app_nil_r. }
    assert (M1 : mine (set_reg w reg) u fd = mine w u fd ++ [rec]).
    { unfold mine. rewrite Ht, filter_app'. cbn [filter lk_handle]. now rewrite Z.eqb_refl. }
    destruct (kern_alone _ _ _ _ U H) as [K1 K2 K3 K4 K5]. constructor.
    + eapply locking_only_trans; eauto.
    + congruence.
    + intros h Hh. rewrite K3 by auto. unfold mine. rewrite Ht, filter_app'. cbn [filter lk_handle].
      destruct (Z.eqb_spec fd h); [congruence|]. now rewrite app_nil_r.
    + auto.
    + cbn [is_reg]. destruct t as [[]|]; destruct K5 as [K5 K6]; rewrite ?M1 in K5; auto.
      destruct K6 as [K6 ->]. auto.
  - assert (Ht : table (set_reg w reg) u = table w u) by (unfold table at 1; rewrite R; exact HL).
    assert (Fin : forall x tt, turn_res PhReg (set_reg w reg) tt x -> (forall v, tt <> TDone (Ok v)) -> (forall p, tt = TWait p -> is_reg p = false) ->
       turn_res PhReg w tt x).
    { intros x tt [A1 A2 A3 A4 A5] T1 T2. constructor.
      - eapply locking_only_trans; eauto.
      - congruence.
      - intros h Hh. rewrite A3 by auto. unfold mine. now rewrite Ht.
      - intros _. apply A4. auto.
      - cbn [is_reg] in *. assert (Mx : mine (set_reg w reg) u fd = mine w u fd) by (unfold mine; now rewrite Ht).
        destruct tt as [[v|e]|p]; [now elim (T1 v)| |]; rewrite ?Mx in A5; auto.
        rewrite (T2 p eq_refl) in *. auto. }
    destruct (low_level_blocking f q).
    + destruct (wait_count f 1 (set_reg w reg)) as [r1 w1] eqn:Ec.
      destruct (count_alone _ _ _ _ Ec) as (C1 & C2 & C3 & C4). destruct (C3 Se) as [C5 ->].
      destruct (C4 Rp) as (C6 & C7 & C8). intros [= <- <-]. apply Fin; [|discriminate|intros p [= <-]; reflexivity].
      constructor; auto.
      * intros h Hh. unfold mine. now rewrite C7.
      * cbn [is_reg]. split; auto. unfold mine. now rewrite C7.
    + intros H. destruct (sleep_reg _ _ _ _ _ H eq_refl) as [-> T]. apply Fin.
      * constructor; auto using locking_only_refl. cbn [is_reg]. destruct t as [[]|]; [contradiction|auto|]. subst. split; reflexivity.
      * intros v ->. contradiction.
      * intros p ->. now rewrite T.
  - intros [= <- <-]. assert (Ht : table (set_reg w reg) u = table w u) by (unfold table at 1; rewrite R; exact HL).
    constructor; auto.
    + intros h Hh. unfold mine. now rewrite Ht.
    + cbn [is_reg]. split; [reflexivity|]. unfold mine. now rewrite Ht.
Qed.

Lemma turn_alone ph w t w' :
  (is_reg ph = true -> mine w u fd = [rec]) -> (ph = PhRegWait -> settled w u) ->
  lock_turn f q ph w = (t, w') -> turn_res ph w t w'.
Proof.
  intros Hm Hs.
  assert (K : is_reg ph = true -> undoes w [] /\ forall M, kern_res M w t w' -> M = [] -> turn_res ph w t w').
  { intros Hr. specialize (Hm Hr). split.
    - unfold mine in Hm. destruct (delete_mine _ _ _ Hm) as (l' & D1 & D2 & D3). exists l'. auto.
    - intros M [A1 A2 A3 A4 A5] ->. constructor; auto. rewrite Hr. destruct t as [[]|]; tauto. }
  destruct ph; cbn [lock_turn is_reg] in *.
  - apply register_alone. discriminate.
  - specialize (Hs eq_refl). destruct (wait_count f (-1) w) as [r1 w1] eqn:Ec.
    destruct (count_alone _ _ _ _ Ec) as (C1 & C2 & C3 & C4). destruct (C3 Hs) as [C5 ->].
    destruct (C4 (proj1 Hs)) as (C6 & C7 & C8). intros H.
    destruct (register_alone false w1 t w' ltac:(auto) H) as [A1 A2 A3 A4 A5]. constructor.
    + eapply locking_only_trans; eauto.
    + congruence.
    + intros h Hh. rewrite A3 by auto. unfold mine. now rewrite C7.
    + auto.
    + cbn [is_reg] in *. assert (Mx : mine w1 u fd = mine w u fd) by (unfold mine; now rewrite C7).
      assert (Ux : unopposed w1 -> unopposed w) by (unfold unopposed; now rewrite C7).
      rewrite (lo_pid _ _ C1), C2 in A5. rewrite Mx in A5.
      destruct t as [[]|p]; [tauto|tauto|]. destruct (is_reg p); tauto.
  - intros H. destruct (K eq_refl) as [U F]. apply (F []); auto. now apply kern_alone.
  - intros H. destruct (K eq_refl) as [U F]. apply (F []); auto. now apply attempt_alone.
Qed.
End Turn.

(** unlock_file() of the whole file. *)
Lemma unlock_alone f w o : f_closed f = false -> f_seekable f = true ->
  w_fds w (fd_of f) = Some o -> o_uid o = uid_of f -> w_inodes w (uid_of f) <> None ->
  (forall e, ~ In (IoErr e) (w_io w)) -> pending w (uid_of f) = [] ->
  forall l', delete_match (table w (uid_of f)) (fd_of f) 0 None = Some l' ->
  exists w', raw_unlock_file f PNone PNone 0 w = (Ok tt, w')
    /\ locking_only w w' /\ table w' (uid_of f) = l' /\ pending w' (uid_of f) = []
    /\ w_kern w' = kunlock (w_kern w) (w_pid w) (uid_of f) 0 None /\ settled w' (uid_of f).
Proof.
  intros Hc Hs Efd Eu Hi Hio Hp l' Ed.
  unfold raw_unlock_file, check_seekable, check_closed, bind. rewrite Hc, Hs. unfold ret.
  cbn [bad_nonneg seek_value Z.eqb orb negb abs_offset parg_opt]. unfold abs_offset. cbn [Z.eqb]. unfold ret.
  unfold unregister_file_lock. fold (registry_of w). unfold try_unlocking_range.
  unfold table in Ed. unfold pending in Hp.
  destruct (r_map (registry_of w) (uid_of f)) as [e|] eqn:Ee; [|discriminate].
  cbn [range_end]. rewrite Ed.
  set (reg := reg_set _ _ _). set (w1 := set_reg w reg).
  assert (Hrp : r_pid reg = w_pid w) by exact (registry_of_pid w).
  unfold inner_file_unlock, finally.
  rewrite (sys_unlock_ok _ _ _ w1 o) by (auto; try lia; now rewrite Eu). rewrite Eu, kend_range. cbn [range_end].
  set (w2 := set_kern _ _).
  assert (R2 : w_reg w2 = reg /\ w_pid w2 = w_pid w /\ w_kern w2 = kunlock (w_kern w) (w_pid w) (uid_of f) 0 None)
    by (split; [|split]; reflexivity).
  assert (L2 : locking_only w w2).
  { apply (locking_only_trans w w1); [apply lo_set_reg|]. apply (locking_only_trans w1 (set_io w1 (tl (w_io w1)))); [apply lo_set_io|apply lo_set_kern]. }
  clearbody w2. destruct R2 as (R2 & P2 & K2). unfold bind.
  assert (Eg : r_map reg (uid_of f) = Some (mkEntry l' (e_data e) (e_waiting e))) by apply reg_set_eq.
  clearbody reg.
  assert (X : exists b r', purge_pending (uid_of f) w2 = (Ok b, set_reg w2 r') /\ r_pid r' = w_pid w
      /\ locks_of r' (uid_of f) = l' /\ data_of r' (uid_of f) = [] /\ r_map r' (uid_of f) <> None).
  { unfold purge_pending, unique_id_has_locks, remove_unique_id_data. rewrite R2, P2.
    assert (check_forking (w_pid w) reg = reg) as Cf by (unfold check_forking; rewrite Hrp, Z.eqb_refl; reflexivity).
    rewrite !Cf, Eg. cbn [e_locks e_data e_waiting]. destruct l' as [|x l']; cbn [is_nil negb].
    - rewrite Hp. cbn [close_all]. unfold ret. exists true. eexists. split; [reflexivity|]. cbn.
      split; [exact Hrp|]. unfold locks_of, data_of. rewrite reg_set_eq. split; [auto|split; [auto|]]. rewrite upd_same by apply P_Raw.uid_eqb_refl. discriminate.
    - exists false. eexists. split; [reflexivity|]. split; [exact Hrp|]. unfold locks_of, data_of. rewrite Eg. split; [auto|split; [auto|intros X; discriminate X]]. }
  destruct X as (bb & r' & -> & X1 & X2 & X3 & X4).
  assert (R3 : registry_of (set_reg w2 r') = r').
  { rewrite registry_of_id; cbn; congruence. }
  eexists. split; [reflexivity|]. split; [eapply locking_only_trans; [exact L2|apply lo_set_reg]|].
  split; [unfold table; rewrite R3; exact X2|]. split; [unfold pending; rewrite R3; exact X3|].
  split; [exact K2|]. split; [cbn [w_reg w_pid set_reg]; congruence|exact X4].
Qed.

