(** lock_file and unlock_file as calls: the loop of P_Lock put in context. *)
From Coq Require Import ZArith List Bool Lia.
From Verif Require Import M_Base M_Modes M_Registry M_Kernel M_World M_Raw S_Locks S_LockFile
  P_Raw P_Registry P_Kernel P_Lock.
Import ListNotations.
Open Scope Z_scope.

(** * Reading the invariant in the vocabulary of S_LockFile *)
Lemma kend_range off length : kend off (klen length) = range_end off length.
Proof. unfold kend, klen, range_end. destruct length; auto. Qed.

Lemma check_forking_idem pid r : check_forking pid (check_forking pid r) = check_forking pid r.
Proof.
  unfold check_forking. destruct (pid =? r_pid r) eqn:E; rewrite ?E; auto.
  cbn. now rewrite Z.eqb_refl.
Qed.
Lemma check_forking_registry w : check_forking (w_pid w) (registry_of w) = registry_of w.
Proof. apply check_forking_idem. Qed.
Lemma registry_of_id w : r_pid (w_reg w) = w_pid w -> registry_of w = w_reg w.
Proof. apply check_forking_id. Qed.
Lemma registry_of_pid w : r_pid (registry_of w) = w_pid w.
Proof. unfold registry_of, check_forking. destruct (w_pid w =? r_pid (w_reg w)) eqn:E; cbn; auto. lia. Qed.

(** The world with the registry reset if it was inherited by fork. *)
Definition norm (w : world) : world := set_reg w (registry_of w).
Lemma norm_rpid w : r_pid (w_reg (norm w)) = w_pid (norm w).
Proof. exact (registry_of_pid w). Qed.
Lemma norm_registry w : registry_of (norm w) = registry_of w.
Proof. apply check_forking_idem. Qed.
Lemma table_norm w u : table (norm w) u = table w u.
Proof. unfold table. now rewrite norm_registry. Qed.

Lemma lock_loop_norm f q env w : lock_loop f q env PhReg w = lock_loop f q env PhReg (norm w).
Proof.
  rewrite !lock_loop_eq. unfold l_register, register_once. cbn [w_pid w_reg norm set_reg].
  unfold registry_of. rewrite check_forking_idem. destruct (try_locking_range _ _ _ _ _ _). reflexivity.
Qed.

Lemma linv_no_trace f q b w w' : linv f q b (norm w) PhReg w' -> no_trace (uid_of f) (fd_of f) w w'.
Proof.
  intros [].
  assert (registry_of w' = w_reg w') as R by now apply registry_of_id.
  assert (w_reg (norm w) = registry_of w) as R0 by reflexivity.
  rewrite R0 in *. unfold locks_of, data_of, waiting_of in *. cbn [is_reg nwait] in *.
  rewrite Z.add_0_r in *. rewrite app_nil_r in *.
  constructor; auto.
  - intros fd. now rewrite li_fds.
  - unfold mine, table. rewrite R. auto.
  - unfold pending. rewrite R. auto.
  - unfold waiters. rewrite R. auto.
  - intros v Hv. rewrite R. auto.
  - unfold own_kernel. rewrite li_pid. auto.
Qed.

Lemma refused_busy f q w : r_pid (w_reg w) = w_pid w -> refused f q False w ->
  busy w (uid_of f) (fd_of f) (q_off q) (q_length q) (q_shared q).
Proof.
  intros Hr [(lk & Hin & Hh & Hs & b & B1 & B2)|[Hk|[]]].
  - left. exists lk, b. unfold table. rewrite registry_of_id by auto. unfold locks_of in Hin.
    apply range_end_covers in B2. auto.
  - right. rewrite kend_range in Hk. apply ksetlk_refused in Hk.
    destruct Hk as (p & sh & b & Hp & (s & Hs & <- & <- & <- & B) & Hb & Hc).
    apply range_end_covers in Hb. exists s, b. repeat split; auto; try apply B; apply Hb.
Qed.

(** * Working system calls *)
Lemma lockable_pre f q w : lockable f w (q_shared q) -> 0 <= q_off q ->
  exists io, lock_pre (fd_of f) (q_shared q) (q_off q) w = (Ok (uid_of f), set_io w io).
Proof.
  intros [(o & Ho & Hu & Hr) Hi Hio] Hoff. unfold lock_pre, bind, get_fd. rewrite Ho, Hu.
  destruct (w_inodes w (uid_of f)) as [i|]; [|congruence]. rewrite next_io_eq.
  assert ((q_off q <? 0) = false) as E by (apply Z.ltb_ge; lia). rewrite E.
  assert ((if q_shared q then negb (o_rd o) else negb (o_wr o)) = false) as E'
    by (destruct (q_shared q); rewrite Hr; auto). rewrite E', Hu.
  destruct (hd IoFull (w_io w)) eqn:Eh; unfold ret; eauto.
  exfalso. eapply Hio. eapply hd_in; eauto.
Qed.
Lemma lockable_linv f q b w ph w' : lockable f w (q_shared q) -> linv f q b (norm w) ph w' ->
  lockable f w' (q_shared q).
Proof.
  intros [H1 H2 H3] []. cbn in li_fds, li_inode, li_io. constructor.
  - now rewrite li_fds.
  - destruct (w_inodes w (uid_of f)); [|congruence]. destruct li_inode as (i' & -> & _). discriminate.
  - intros e He. apply (H3 e). auto.
Qed.

(** * Everything at once, for a request *)
Section Req.
Variables (f : rawio) (q : lockreq).
Hypothesis Hlen : match q_length q with Some l => 0 <= l | None => True end.

Lemma loop_general b env w : qev b env ->
  outcome f q True b (norm w) (lock_loop f q env PhReg w).
Proof.
  intros Hq. rewrite lock_loop_norm. apply lock_loop_outcome; auto.
  apply linv_start, norm_rpid.
Qed.
Lemma loop_working b env w : qev b env -> lockable f w (q_shared q) -> 0 <= q_off q ->
  outcome f q False b (norm w) (lock_loop f q env PhReg w).
Proof.
  intros Hq Hw Ho. rewrite lock_loop_norm. apply lock_loop_outcome; auto.
  - intros ph w1 w2 e L E. destruct (lockable_pre f q w1) as (io & E'); auto.
    + eapply lockable_linv; eauto.
    + rewrite E' in E. discriminate.
  - apply linv_start, norm_rpid.
Qed.

(** A granted lock *)
Record granted (w w' : world) : Prop := mkGranted {
  gr_names : w_names w' = w_names w;
  gr_fds : w_fds w' = w_fds w;
  gr_pid : w_pid w' = w_pid w;
  gr_mine : mine w' (uid_of f) (fd_of f)
            = mine w (uid_of f) (fd_of f)
              ++ [mkLock (fd_of f) (q_shared q) (q_off q) (range_end (q_off q) (q_length q))];
  gr_pending : pending w' (uid_of f) = pending w (uid_of f);
  gr_waiters : waiters w' (uid_of f) = waiters w (uid_of f);
  gr_other : forall v, v <> uid_of f -> r_map (registry_of w') v = r_map (registry_of w) v;
  gr_kernel : forall b, covers (q_off q) (q_length q) b -> process_holds w' (uid_of f) (q_shared q) b;
  gr_kernel_other : forall v sh b, ~ (v = uid_of f /\ covers (q_off q) (q_length q) b) ->
                    (process_holds w' v sh b <-> process_holds w v sh b);
  gr_free : ~ kernel_busy w' (uid_of f) (q_off q) (q_length q) (q_shared q);
  gr_inodes : forall v, v <> uid_of f -> w_inodes w' v = w_inodes w v }.

Lemma process_holds_kholds w u sh b : process_holds w u sh b <-> kholds (w_kern w) (w_pid w) u sh b.
Proof. reflexivity. Qed.
Lemma kholds_own K p u sh b :
  kholds K p u sh b <-> kholds (filter (fun s => k_pid s =? p) K) p u sh b.
Proof.
  unfold kholds. split; intros (s & Hin & H).
  - exists s. split; auto. apply filter_In. split; auto. destruct H as [H _]. now apply Z.eqb_eq.
  - exists s. split; auto. apply filter_In in Hin. tauto.
Qed.

Lemma ok_granted b w w1 K : linv f q b (norm w) PhKern w1 ->
  ksetlk (w_kern w1) (w_pid w1) (uid_of f) (q_shared q) (q_off q)
         (kend (q_off q) (klen (q_length q))) = Some K ->
  granted w (set_kern w1 K).
Proof.
  intros L HK. rewrite kend_range in HK. pose proof (ksetlk_holds _ _ _ _ _ _ _ HK) as HH.
  pose proof (ksetlk_noconflict _ _ _ _ _ _ _ HK) as HN. destruct L.
  set (w' := set_kern w1 K).
  assert (registry_of w' = w_reg w1) as R by (apply (registry_of_id w'); auto).
  assert (w_reg (norm w) = registry_of w) as R0 by reflexivity.
  rewrite R0 in *. unfold locks_of, data_of, waiting_of in *. cbn [is_reg nwait] in *.
  rewrite Z.add_0_r in *. cbn [norm w_pid w_kern w_names w_fds w_inodes set_reg] in *.
  constructor; auto.
  - unfold mine, table. rewrite R. auto.
  - unfold pending. rewrite R. auto.
  - unfold waiters. rewrite R. auto.
  - intros v Hv. rewrite R. auto.
  - intros c Hc. apply process_holds_kholds. apply HH. left. repeat split; auto.
    + apply Hc.
    + apply range_end_covers in Hc. apply Hc.
  - intros v sh c Hn. rewrite !process_holds_kholds. cbn [w' w_kern w_pid set_kern]. rewrite HH.
    rewrite (kholds_own (w_kern w1)), (kholds_own (w_kern w)), li_pid, li_kern.
    assert (~ (w_pid w = w_pid w /\ v = uid_of f /\ in_range (q_off q) (range_end (q_off q) (q_length q)) c)) as Hn'.
    { intros (_ & H1 & H2). apply range_end_covers in H2. tauto. }
    split; [|auto]. intros [(_ & H1 & _ & H2)|[H _]]; [exfalso; tauto|auto].
  - intros (s & c & Hin & Hp & Hu & Hs & Hb & Hc). cbn [w' w_kern w_pid set_kern] in *. apply Hs.
    assert (kholds (w_kern w1) (k_pid s) (uid_of f) (k_shared s) c) as X.
    { assert (kholds K (k_pid s) (uid_of f) (k_shared s) c) as X by (exists s; auto).
      apply HH in X. destruct X as [(X & _)|[X _]]; [congruence|auto]. }
    eapply HN; eauto. now apply range_end_covers.
Qed.
End Req.

(** * Independence from unused environment events *)
Definition with_env (x : list envev) {A} (p : res A * world) : res A * world := (fst p, set_env (snd p) x).

Lemma set_env_set_env w x y : set_env (set_env w x) y = set_env w y.
Proof. reflexivity. Qed.
Lemma lock_pre_env fd sh off w x : lock_pre fd sh off (set_env w x) = with_env x (lock_pre fd sh off w).
Proof.
  unfold lock_pre, bind, get_fd, with_env. cbn [w_fds w_inodes set_env]. destruct (w_fds w fd); [|reflexivity].
  destruct (w_inodes w (o_uid o)); [|reflexivity]. rewrite !next_io_eq. cbn [w_io set_env].
  destruct (hd IoFull (w_io w)); try reflexivity;
    (destruct (off <? 0); [reflexivity|]; destruct (if sh then _ else _); reflexivity).
Qed.
Lemma lock_attempt_env u sh lo n w x : lock_attempt u sh lo n (set_env w x) = with_env x (lock_attempt u sh lo n w).
Proof. unfold lock_attempt, with_env. cbn. destruct (ksetlk _ _ _ _ _ _); reflexivity. Qed.
Lemma unregister_env f q w x : unregister f q (set_env w x) = with_env x (unregister f q w).
Proof. unfold unregister, with_env. cbn. destruct (unregister_file_lock _ _ _ _ _ _) as [[[] ?] ?]; reflexivity. Qed.
Lemma wait_count_env f d w x : wait_count f d (set_env w x) = with_env x (wait_count f d w).
Proof. unfold wait_count, with_env. cbn. destruct (add_waiting _ _ _); reflexivity. Qed.
Lemma apply_env_env u h ev w x env : set_env (apply_env u h ev (set_env w x)) env = set_env (apply_env u h ev w) env.
Proof.
  unfold apply_env. destruct (ev_kern ev), (ev_locks ev); cbn [w_reg set_kern set_clock set_reg set_env];
    try destruct (r_map (w_reg w) u);
    destruct (ev_data ev); cbn; try reflexivity; destruct (w_inodes w u); reflexivity.
Qed.

Section Stable.
Variables (f : rawio) (q : lockreq) (more : list envev).
Definition stab (p p' : res unit * world) : Prop :=
  fst p <> Err EHang -> exists y, p' = with_env y p.
Section Step.
Variable env : list envev.
Hypothesis IH : forall ev env' ph w x, env = ev :: env' ->
  stab (lock_loop f q env' ph w) (lock_loop f q (env' ++ more) ph (set_env w x)).

Lemma stab_wait ph w x : stab (l_wait f q env ph w) (l_wait f q (env ++ more) ph (set_env w x)).
Proof.
  unfold l_wait. destruct env as [|ev env'] eqn:E.
  - intros H. now elim H.
  - cbn [app]. rewrite apply_env_env.
    rewrite <- (set_env_set_env (apply_env _ _ ev w) env' (env' ++ more)). now apply IH with ev.
Qed.
Lemma stab_fail r e w x : stab (l_fail f q r e w) (l_fail f q r e (set_env w x)).
Proof.
  intros _. exists x. unfold l_fail. destruct r; [|reflexivity]. rewrite unregister_env.
  destruct (unregister f q w) as [[] ?]; reflexivity.
Qed.
Lemma stab_sleep ph n r w x : stab (l_sleep f q env ph n r w) (l_sleep f q (env ++ more) ph n r (set_env w x)).
Proof.
  unfold l_sleep. cbn [w_clock set_env]. destruct (check_timeout _ _ _ _); [apply stab_fail|apply stab_wait].
Qed.
Lemma stab_attempt w x : stab (l_attempt f q env w) (l_attempt f q (env ++ more) (set_env w x)).
Proof.
  unfold l_attempt. rewrite lock_attempt_env. destruct (lock_attempt _ _ _ _ w) as [[[]|] w'];
    cbn [with_env fst snd].
  - intros _. exists x. reflexivity.
  - destruct (low_level_blocking f q); [apply stab_wait|apply stab_sleep].
  - destruct (low_level_blocking f q); [apply stab_wait|apply stab_sleep].
Qed.
Lemma stab_kern w x : stab (l_kern f q env w) (l_kern f q (env ++ more) (set_env w x)).
Proof.
  unfold l_kern. rewrite lock_pre_env. destruct (lock_pre _ _ _ w) as [[|[]] w']; cbn [with_env fst snd];
    try apply stab_fail; [apply stab_attempt|apply stab_sleep].
Qed.
Lemma stab_register first w x : stab (l_register f q env first w) (l_register f q (env ++ more) first (set_env w x)).
Proof.
  unfold l_register. cbn [w_pid w_reg set_env]. destruct (register_once _ _ _ _ _ _ _ _) as [[[]|] reg].
  - apply (stab_kern (set_reg w reg)).
  - destruct (low_level_blocking f q).
    + change (set_reg (set_env w x) reg) with (set_env (set_reg w reg) x). rewrite wait_count_env.
      destruct (wait_count _ _ _) as [[] w2]; cbn [with_env fst snd].
      * apply stab_wait.
      * intros _. exists x. reflexivity.
    + apply (stab_sleep _ _ _ (set_reg w reg)).
  - intros _. exists x. reflexivity.
Qed.
Lemma stab_step ph w x : stab (lock_loop f q env ph w) (lock_loop f q (env ++ more) ph (set_env w x)).
Proof.
  rewrite !lock_loop_eq. destruct ph.
  - apply stab_register.
  - rewrite wait_count_env. destruct (wait_count _ _ _) as [[] w2]; cbn [with_env fst snd].
    + apply stab_register.
    + intros _. exists x. reflexivity.
  - apply stab_kern.
  - apply stab_attempt.
Qed.
End Step.
Lemma lock_loop_stable : forall env ph w x,
  stab (lock_loop f q env ph w) (lock_loop f q (env ++ more) ph (set_env w x)).
Proof.
  induction env as [|ev env IH]; intros; apply stab_step.
  - discriminate.
  - intros ev' env' ph' w' x' [= <- <-]. apply IH.
Qed.
End Stable.

(** * The calls *)
Lemma set_fds_id w : set_fds w (w_fds w) = w.
Proof. now destruct w. Qed.

Lemma abs_offset_pres f offset whence w r w1 : abs_offset f offset whence w = (r, w1) ->
  (forall fd, w_fds w1 fd = w_fds w fd) /\ w1 = set_fds w (w_fds w1).
Proof.
  unfold abs_offset. destruct (whence =? 0).
  { unfold ret. intros [= <- <-]. now rewrite set_fds_id. }
  destruct (whence =? 1).
  - unfold bind, inner_tell, sys_lseek, bind, get_fd. destruct (w_fds w (fd_of f)) as [o|] eqn:Eo.
    2:{ intros [= <- <-]. now rewrite set_fds_id. }
    destruct (w_inodes w (o_uid o)) as [i|].
    2:{ intros [= <- <-]. now rewrite set_fds_id. }
    assert (set_pos o (o_pos o + 0) = o) as Es by (rewrite Z.add_0_r; apply set_pos_same).
    destruct (n_kind i); cbn [Z.eqb Pos.eqb]; unfold raise, ret;
      try (destruct (o_pos o + 0 <? 0)); intros [= <- <-]; rewrite ?set_fds_id; auto;
      rewrite Es; (split; [|reflexivity]); intros fd; cbn; unfold upd; destruct (fd_of f =? fd) eqn:E; auto;
      apply Z.eqb_eq in E; now subst.
  - unfold bind, inner_size, sys_fstat, bind, get_fd, ret.
    destruct (w_fds w (fd_of f)) as [o|]; [destruct (w_inodes w (o_uid o)) as [i|]|]; intros [= <- <-];
      rewrite ?set_fds_id; auto.
Qed.
Lemma abs_offset_env f offset whence w x : abs_offset f offset whence (set_env w x) = with_env x (abs_offset f offset whence w).
Proof.
  unfold abs_offset. destruct (whence =? 0); [reflexivity|].
  destruct (whence =? 1).
  - unfold bind, inner_tell, sys_lseek, bind, get_fd, with_env. cbn [w_fds w_inodes set_env].
    destruct (w_fds w (fd_of f)) as [o|]; [|reflexivity].
    destruct (w_inodes w (o_uid o)) as [i|]; [|reflexivity].
    destruct (n_kind i); cbn [Z.eqb Pos.eqb]; try (destruct (_ <? 0)); reflexivity.
  - unfold bind, inner_size, sys_fstat, bind, get_fd, ret, with_env. cbn [w_fds w_inodes set_env].
    destruct (w_fds w (fd_of f)) as [o|]; [destruct (w_inodes w (o_uid o)) as [i|]|]; reflexivity.
Qed.

(** Arguments that pass the checks. *)
Definition args_ok (f : rawio) (timeout length offset : parg) (whence : Z) (shared : sarg) : bool :=
  negb (f_closed f) && f_seekable f
  && negb (bad_nonneg timeout) && negb (bad_nonneg length)
  && (match offset with PBad => false | _ => true end)
  && seek_value whence
  && (match shared with SBad => false | _ => true end).
Definition share_of (f : rawio) (shared : sarg) : bool :=
  match shared with SBool b => b | _ => negb (f_writable f) end.
Definition share_ok (f : rawio) (sh : bool) : bool := if sh then f_readable f else f_writable f.

Lemma lock_file_args f t l o wh s w :
  raw_lock_file f t l o wh s w =
  if f_closed f then (Err EValue, w)
  else if negb (f_seekable f) then (Err EUnsupported, w)
  else if negb (args_ok f t l o wh s) then (Err EBadValue, w)
  else if negb (share_ok f (share_of f s)) then (Err (EOS 0), w)
  else match abs_offset f o wh w with
       | (Err e, w1) => (Err e, w1)
       | (Ok off, w1) =>
           match lock_loop f (mkReq (parg_opt l) off (share_of f s) (parg_opt t) (w_clock w1)) (w_env w1) PhReg w1 with
           | (Ok _, w') => (Ok (parg_opt l, off), w')
           | (Err e, w') => (Err e, w')
           end
       end.
Proof.
  unfold raw_lock_file, check_seekable, check_closed, bind, args_ok, share_ok.
  destruct (f_closed f) eqn:Ec; [reflexivity|].
  destruct (f_seekable f) eqn:Es; [|reflexivity]. unfold ret, raise. cbn [negb andb].
  destruct (bad_nonneg t); [reflexivity|]. destruct (bad_nonneg l); [reflexivity|]. cbn [negb andb].
  destruct o as [|oz|]; try reflexivity; (destruct (seek_value wh); [|reflexivity]);
    (destruct s as [|sb|]; [| |reflexivity]); cbn [negb andb share_of];
    try (destruct sb); destruct (f_readable f), (f_writable f); cbn [negb andb orb]; try reflexivity;
    destruct (abs_offset f _ wh w) as [[] w1]; reflexivity.
Qed.

Lemma bad_nonneg_opt l : bad_nonneg l = false -> match parg_opt l with Some x => 0 <= x | None => True end.
Proof. destruct l; cbn; auto. intros H. lia. Qed.
Lemma args_ok_len f t l o wh s : args_ok f t l o wh s = true ->
  match parg_opt l with Some x => 0 <= x | None => True end.
Proof. unfold args_ok. rewrite !andb_true_iff, !negb_true_iff. intros H. apply bad_nonneg_opt. tauto. Qed.

(** * Unlocking *)
Lemma table_set_reg w r u : r_pid r = w_pid w -> table (set_reg w r) u = locks_of r u.
Proof. intros H. unfold table. rewrite registry_of_id by auto. reflexivity. Qed.

Lemma close_all_keeps : forall fds w r w', close_all fds w = (r, w') ->
  w_reg w' = w_reg w /\ w_pid w' = w_pid w
  /\ (forall v sh b, process_holds w' v sh b -> process_holds w v sh b).
Proof.
  induction fds as [|fd fds IH]; cbn [close_all]; intros w r w'.
  - unfold ret. intros [= <- <-]. auto.
  - unfold bind, sys_close. destruct (w_fds w fd) as [o|].
    + intros E. apply IH in E. cbn [w_reg w_pid set_kern upd_fd set_fds] in E. destruct E as (E1 & E2 & E3).
      split; [auto|]. split; [auto|]. intros v sh b H. apply E3 in H.
      apply process_holds_kholds in H. apply (kclose_holds (w_kern w)) in H. apply process_holds_kholds. tauto.
    + intros [= <- <-]. auto.
Qed.

Lemma purge_keeps u w r w' : purge_pending u w = (r, w') ->
  (forall v, table w' v = table w v) /\ w_pid w' = w_pid w
  /\ (forall v sh b, process_holds w' v sh b -> process_holds w v sh b).
Proof.
  unfold purge_pending, unique_id_has_locks, remove_unique_id_data.
  fold (registry_of w). rewrite (check_forking_registry w).
  assert (forall v, locks_of (registry_of w) v = table w v) as HT by reflexivity.
  destruct (match r_map (registry_of w) u with Some e => negb (is_nil (e_locks e)) | None => false end).
  - intros [= <- <-]. split; [|auto]. intros v. rewrite table_set_reg; auto. apply registry_of_pid.
  - destruct (r_map (registry_of w) u) as [e|] eqn:Ee.
    + set (reg := reg_set _ _ _).
      destruct (close_all (e_data e) (set_reg w reg)) as [[] w2] eqn:Ec; intros [= <- <-];
        apply close_all_keeps in Ec; destruct Ec as (E1 & E2 & E3); (split; [|split; [auto|exact E3]]);
        intros v; unfold table, registry_of; rewrite E1, E2;
        change (table (set_reg w reg) v = table w v);
        (rewrite table_set_reg; [|exact (registry_of_pid w)]); unfold reg, locks_of;
        (destruct (uid_dec u v) as [<-|Hn]; [rewrite reg_set_eq; unfold table; now rewrite Ee
                                            |rewrite reg_set_neq by auto; reflexivity]).
    + cbn [close_all]. unfold ret. intros [= <- <-]. split; [|auto]. intros v. rewrite table_set_reg; auto.
      apply registry_of_pid.
Qed.
Lemma purge_nodata u w r w' : pending w u = [] -> purge_pending u w = (r, w') -> exists b, r = Ok b.
Proof.
  unfold pending, purge_pending, unique_id_has_locks, remove_unique_id_data.
  fold (registry_of w). rewrite (check_forking_registry w).
  destruct (match r_map (registry_of w) u with Some e => negb (is_nil (e_locks e)) | None => false end).
  { intros _ [= <- <-]. eauto. }
  destruct (r_map (registry_of w) u) as [e|]; [intros ->|intros _]; cbn; intros [= <- <-]; eauto.
Qed.

Lemma mine_app_drop u h w w' l1 lk l2 :
  table w u = l1 ++ lk :: l2 -> table w' u = l1 ++ l2 -> lk_handle lk = h ->
  exists m1 m2, mine w u h = m1 ++ lk :: m2 /\ mine w' u h = m1 ++ m2.
Proof.
  intros E1 E2 Hh. unfold mine. rewrite E1, E2, !filter_app'. cbn.
  rewrite (proj2 (Z.eqb_eq _ _) Hh). eauto.
Qed.

Lemma sys_unlock_ok fd off n w o : w_fds w fd = Some o -> w_inodes w (o_uid o) <> None ->
  (forall e, ~ In (IoErr e) (w_io w)) -> 0 <= off ->
  sys_unlock fd off n w
  = (Ok tt, set_kern (set_io w (tl (w_io w))) (kunlock (w_kern w) (w_pid w) (o_uid o) off (kend off n))).
Proof.
  intros Efd Hi Hio Ho. unfold sys_unlock, bind, get_fd. rewrite Efd.
  destruct (w_inodes w (o_uid o)) as [i|]; [|congruence]. rewrite next_io_eq.
  assert ((off <? 0) = false) as Eo by (apply Z.ltb_ge; lia). rewrite Eo.
  destruct (hd IoFull (w_io w)) eqn:Eh; try reflexivity. exfalso. eapply Hio. eapply hd_in; eauto.
Qed.

(** unlock_file at an absolute offset, system calls working. *)
Lemma unlock_file_ok f length off w :
  f_closed f = false -> f_seekable f = true -> 0 <= off ->
  match length with Some l => 0 <= l | None => True end ->
  (exists lk, In lk (mine w (uid_of f) (fd_of f)) /\ lk_start lk = off /\ lk_end lk = range_end off length) ->
  (exists o, w_fds w (fd_of f) = Some o /\ o_uid o = uid_of f) ->
  w_inodes w (uid_of f) <> None -> (forall e, ~ In (IoErr e) (w_io w)) ->
  forall r w', raw_unlock_file f (match length with None => PNone | Some l => PInt l end) (PInt off) 0 w = (r, w') ->
  (exists m1 lk m2, mine w (uid_of f) (fd_of f) = m1 ++ lk :: m2
      /\ mine w' (uid_of f) (fd_of f) = m1 ++ m2
      /\ lk_start lk = off /\ lk_end lk = range_end off length)
  /\ (forall sh b, covers off length b -> ~ process_holds w' (uid_of f) sh b)
  /\ (pending w (uid_of f) = [] -> r = Ok tt).
Proof.
  intros Hc Hs Ho Hl (lk0 & Hin & Hst & Hen) (o & Efd & Eu) Hi Hio r w'.
  unfold raw_unlock_file, check_seekable, check_closed, bind. rewrite Hc, Hs. unfold ret.
  assert (bad_nonneg (match length with None => PNone | Some l => PInt l end) = false) as E1.
  { destruct length; cbn; auto. lia. }
  assert (bad_nonneg (PInt off) = false) as E2 by (cbn; lia).
  rewrite E1, E2. cbn [seek_value Z.eqb orb negb abs_offset].
  assert (parg_opt (match length with None => PNone | Some l => PInt l end) = length) as E3 by now destruct length.
  rewrite E3. unfold abs_offset. cbn [Z.eqb]. unfold ret.
  unfold unregister_file_lock. fold (registry_of w). unfold try_unlocking_range.
  unfold mine in Hin. apply filter_In in Hin. destruct Hin as [Hin Hh]. apply Z.eqb_eq in Hh.
  unfold table in Hin. destruct (r_map (registry_of w) (uid_of f)) as [e|] eqn:Ee; [|destruct Hin].
  destruct (delete_match (e_locks e) (fd_of f) off (range_end off length)) as [locks'|] eqn:Ed.
  2:{ exfalso. apply (delete_match_none _ _ _ _ Ed lk0 Hin). auto. }
  destruct (delete_match_split _ _ _ _ _ Ed) as (l1 & lk & l2 & D1 & D2 & M1 & M2 & M3 & _).
  set (reg := reg_set _ _ _). set (w1 := set_reg w reg).
  assert (table w (uid_of f) = l1 ++ lk :: l2) as T0 by (unfold table; now rewrite Ee).
  assert (table w1 (uid_of f) = l1 ++ l2) as T1.
  { unfold w1. rewrite table_set_reg by exact (registry_of_pid w). unfold reg, locks_of. rewrite reg_set_eq. auto. }
  assert (pending w1 (uid_of f) = pending w (uid_of f)) as Hp.
  { unfold pending. rewrite (registry_of_id w1) by exact (registry_of_pid w). cbn [w1 w_reg set_reg]. unfold reg.
    rewrite reg_set_eq, Ee. auto. }
  unfold inner_file_unlock, finally.
  rewrite (sys_unlock_ok _ _ _ w1 o) by (auto; now rewrite Eu). rewrite Eu, kend_range.
  set (w2 := set_kern _ _).
  assert (w_reg w2 = reg /\ w_pid w2 = w_pid w
     /\ w_kern w2 = kunlock (w_kern w) (w_pid w) (uid_of f) off (range_end off length)) as (R2 & P2 & K2)
    by (split; [|split]; reflexivity).
  clearbody w2. unfold bind.
  assert (table w2 (uid_of f) = l1 ++ l2) as T2.
  { rewrite <- T1. unfold table, registry_of. now rewrite R2, P2. }
  assert (pending w2 (uid_of f) = pending w (uid_of f)) as Hp2.
  { rewrite <- Hp. unfold pending, registry_of. now rewrite R2, P2. }
  destruct (purge_pending (uid_of f) w2) as [rp w3] eqn:Ep.
  pose proof (purge_keeps _ _ _ _ Ep) as (T3 & P3 & K3).
  pose proof (fun H => purge_nodata _ _ _ _ H Ep) as Hnd. rewrite Hp2 in Hnd.
  assert (forall w', w' = w3 -> (exists m1 lk m2, mine w (uid_of f) (fd_of f) = m1 ++ lk :: m2
      /\ mine w' (uid_of f) (fd_of f) = m1 ++ m2
      /\ lk_start lk = off /\ lk_end lk = range_end off length)
    /\ (forall sh b, covers off length b -> ~ process_holds w' (uid_of f) sh b)) as Hfin.
  { intros w4 ->. split.
    - destruct (mine_app_drop (uid_of f) (fd_of f) w w3 l1 lk l2) as (m1 & m2 & A & B); auto.
      { now rewrite T3. } exists m1, lk, m2. auto.
    - intros sh b Hb Hh'. apply K3 in Hh'. apply (proj1 (process_holds_kholds _ _ _ _)) in Hh'. rewrite K2, P2 in Hh'.
      apply kunlock_holds in Hh'. destruct Hh' as [_ X]. apply X. apply range_end_covers in Hb. auto. }
  destruct rp as [bb|ee]; intros [= <- <-]; destruct (Hfin w3 eq_refl); repeat split; auto.
  intros Hpe. destruct (Hnd Hpe). discriminate.
Qed.
