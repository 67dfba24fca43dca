(** The lock_file loop: what it leaves behind, and when it returns. *)
From Coq Require Import ZArith List Bool Lia.
From Verif Require Import M_Base M_Modes M_Registry M_Kernel M_World M_Raw S_Locks S_LockFile
  P_Raw P_Registry P_Kernel.
Import ListNotations.
Open Scope Z_scope.

(** * The loop, unfolded *)
Section Loop.
Variables (f : rawio) (q : lockreq).
Notation u := (uid_of f).
Notation fd := (fd_of f).
Notation hi := (range_end (q_off q) (q_length q)).
Notation rec := (mkLock fd (q_shared q) (q_off q) hi).

Definition l_fail (reg : bool) (e : exn) (w : world) : res unit * world :=
  if reg then match unregister f q w with
              | (Ok _, w') => (Err e, w')
              | (Err e', w') => (Err e', w')
              end
  else (Err e, w).
Definition l_wait (env : list envev) (next : phase) (w : world) : res unit * world :=
  match env with
  | [] => (Err EHang, w)
  | ev :: env' => lock_loop f q env' next (set_env (apply_env u fd ev w) env')
  end.
Definition l_sleep (env : list envev) (next : phase) (errno : Z) (reg : bool) (w : world) :=
  match check_timeout f q (w_clock w) errno with
  | Some e => l_fail reg e w
  | None => l_wait env next w
  end.
Definition l_attempt (env : list envev) (w : world) :=
  match lock_attempt u (q_shared q) (q_off q) (klen (q_length q)) w with
  | (Ok true, w') => (Ok tt, w')
  | (_, w') => if low_level_blocking f q then l_wait env PhKernWait w'
               else l_sleep env PhKern EAGAIN true w'
  end.
Definition l_kern (env : list envev) (w : world) :=
  match lock_pre fd (q_shared q) (q_off q) w with
  | (Ok _, w') => l_attempt env w'
  | (Err (EOS e), w') => l_sleep env PhKern e true w'
  | (Err e, w') => l_fail true e w'
  end.
Definition l_register (env : list envev) (first : bool) (w : world) :=
  let '(r, reg) := register_once first (w_pid w) (w_reg w) u fd (q_length q) (q_off q) (q_shared q) in
  let w' := set_reg w reg in
  match r with
  | Err e => (Err e, w')
  | Ok true => l_kern env w'
  | Ok false =>
      if low_level_blocking f q
      then match wait_count f 1 w' with
           | (Err e, w'') => (Err e, w'')
           | (Ok _, w'') => l_wait env PhRegWait w''
           end
      else l_sleep env PhReg EPERM false w'
  end.

Lemma lock_loop_eq env ph w :
  lock_loop f q env ph w =
  match ph with
  | PhReg => l_register env true w
  | PhRegWait => match wait_count f (-1) w with
                 | (Err e, w') => (Err e, w')
                 | (Ok _, w') => l_register env false w'
                 end
  | PhKern => l_kern env w
  | PhKernWait => l_attempt env w
  end.
Proof. destruct env, ph; reflexivity. Qed.

(** * Facts on one step *)
Definition is_reg (ph : phase) : bool := match ph with PhKern | PhKernWait => true | _ => false end.
Definition nwait (ph : phase) : Z := match ph with PhRegWait => 1 | _ => 0 end.
Notation myl L := (filter (fun lk => lk_handle lk =? fd) L).

Definition matches (lk : lockrec) : Prop :=
  lk_handle lk = fd /\ lk_start lk = q_off q /\ lk_end lk = hi.

Record linv (b : bool) (w0 : world) (ph : phase) (w : world) : Prop := mkLinv {
  li_names : w_names w = w_names w0;
  li_fds : w_fds w = w_fds w0;
  li_newfd : w_newfd w = w_newfd w0;
  li_newino : w_newino w = w_newino w0;
  li_pid : w_pid w = w_pid w0;
  li_opts : w_opts w = w_opts w0;
  li_blk : w_blk w = w_blk w0;
  li_rpid : r_pid (w_reg w) = w_pid w;
  li_io : incl (w_io w) (w_io w0);
  li_inodes : forall v, v <> u -> w_inodes w v = w_inodes w0 v;
  li_inode : match w_inodes w0 u with
             | None => w_inodes w u = None
             | Some i => exists i', w_inodes w u = Some i' /\ n_kind i' = n_kind i
             end;
  li_other : forall v, v <> u -> r_map (w_reg w) v = r_map (w_reg w0) v;
  li_data : data_of (w_reg w) u = data_of (w_reg w0) u;
  li_waiting : waiting_of (w_reg w) u = waiting_of (w_reg w0) u + nwait ph;
  li_mine : myl (locks_of (w_reg w) u) = myl (locks_of (w_reg w0) u) ++ (if is_reg ph then [rec] else []);
  li_entry : ph <> PhReg -> r_map (w_reg w) u <> None;
  li_free : is_reg ph = true -> forall lk, In lk (locks_of (w_reg w0) u) -> lk_handle lk = fd ->
            ~ conflicts_same lk fd (q_off q) hi;
  li_off : ph = PhKernWait -> 0 <= q_off q;
  li_kern : filter (fun s => k_pid s =? w_pid w0) (w_kern w)
            = filter (fun s => k_pid s =? w_pid w0) (w_kern w0);
  li_quiet : b = true ->
     w_kern w = w_kern w0
     /\ locks_of (w_reg w) u = locks_of (w_reg w0) u ++ (if is_reg ph then [rec] else []) }.

Lemma linv_start b w : r_pid (w_reg w) = w_pid w -> linv b w PhReg w.
Proof.
  intros H. constructor; auto using incl_refl; try discriminate.
  - destruct (w_inodes w u); eauto.
  - cbn. lia.
  - cbn. now rewrite app_nil_r.
  - cbn. now rewrite app_nil_r.
Qed.

(** Nonempty requests *)
Hypothesis Hlen : match q_length q with Some l => 0 <= l | None => True end.
Lemma range_nonempty : in_range (q_off q) hi (q_off q).
Proof.
  apply range_end_covers. unfold covers. split; [lia|]. destruct (q_length q); [|auto].
  destruct (Z.eq_dec z 0); [auto|]. right; lia.
Qed.
Lemma matches_conflict lk : matches lk -> conflicts_same lk fd (q_off q) hi.
Proof.
  intros (H1 & H2 & H3). split; auto. exists (q_off q). rewrite H2, H3. split; apply range_nonempty.
Qed.

(** Waiting *)
Lemma filter_idem {A} (p : A -> bool) l : filter p (filter p l) = filter p l.
Proof.
  induction l; cbn; auto. destruct (p a) eqn:E; cbn; rewrite ?E; congruence.
Qed.
Lemma filter_none {A} (p g : A -> bool) l :
  (forall x, g x = true -> p x = false) -> filter p (filter g l) = [].
Proof.
  intros H. induction l; cbn; auto. destruct (g a) eqn:E; cbn; auto. now rewrite H.
Qed.
Lemma filter_app' {A} (p : A -> bool) a b : filter p (a ++ b) = filter p a ++ filter p b.
Proof. induction a; cbn; auto. destruct (p a); cbn; congruence. Qed.

Lemma mine_env_locks cur new : myl (env_locks fd cur new) = myl cur.
Proof.
  unfold env_locks. rewrite filter_app', filter_idem, filter_none, app_nil_r; auto.
  intros x. rewrite andb_true_iff, negb_true_iff. tauto.
Qed.

(** The registry, the kernel and the inode after a wait *)
Lemma apply_env_fields ev w env :
  let w' := set_env (apply_env u fd ev w) env in
  w_names w' = w_names w /\ w_fds w' = w_fds w /\ w_newfd w' = w_newfd w /\ w_newino w' = w_newino w
  /\ w_pid w' = w_pid w /\ w_opts w' = w_opts w /\ w_blk w' = w_blk w /\ w_io w' = w_io w
  /\ w_clock w' = w_clock w + ev_dt ev /\ w_env w' = env.
Proof.
  unfold apply_env. destruct (ev_kern ev), (ev_locks ev), (ev_data ev); cbn;
    repeat match goal with |- context [match ?x with _ => _ end] => destruct x; cbn end; repeat split; auto.
Qed.
Lemma apply_env_reg ev w :
  w_reg (apply_env u fd ev w) =
  match ev_locks ev, r_map (w_reg w) u with
  | Some L, Some e => reg_set (w_reg w) u (Some (mkEntry (env_locks fd (e_locks e) L) (e_data e) (e_waiting e)))
  | _, _ => w_reg w
  end.
Proof.
  unfold apply_env. destruct (ev_kern ev), (ev_locks ev); cbn [w_reg set_kern set_clock set_reg];
    try destruct (r_map (w_reg w) u); cbn [w_reg set_kern set_clock set_reg];
    destruct (ev_data ev); cbn; try reflexivity;
    match goal with |- context [match ?x with _ => _ end] => destruct x; reflexivity end.
Qed.
Lemma apply_env_kern ev w :
  w_kern (apply_env u fd ev w) =
  match ev_kern ev with
  | None => w_kern w
  | Some K => filter (fun s => k_pid s =? w_pid w) (w_kern w) ++ filter (fun s => negb (k_pid s =? w_pid w)) K
  end.
Proof.
  unfold apply_env. destruct (ev_kern ev), (ev_locks ev); cbn [w_reg set_kern set_clock set_reg];
    try destruct (r_map (w_reg w) u); destruct (ev_data ev); cbn; try reflexivity;
    match goal with |- context [match ?x with _ => _ end] => destruct x; reflexivity end.
Qed.
Lemma apply_env_inodes ev w v :
  w_inodes (apply_env u fd ev w) v =
  match ev_data ev with
  | Some d => if uid_eqb u v then match w_inodes w u with
                                  | Some i => Some (mkIno (n_kind i) d true)
                                  | None => w_inodes w v
                                  end
              else w_inodes w v
  | None => w_inodes w v
  end.
Proof.
  unfold apply_env.
  assert (forall w3, w_inodes w3 = w_inodes w ->
    w_inodes (match ev_data ev, w_inodes w3 u with
              | Some d, Some i => upd_ino w3 u (mkIno (n_kind i) d true)
              | _, _ => w3
              end) v =
    match ev_data ev with
    | Some d => if uid_eqb u v then match w_inodes w u with
                                    | Some i => Some (mkIno (n_kind i) d true)
                                    | None => w_inodes w v
                                    end
                else w_inodes w v
    | None => w_inodes w v
    end) as H.
  { intros w3 H3. rewrite H3. destruct (ev_data ev); [|now rewrite H3].
    destruct (w_inodes w u); cbn; unfold upd; [rewrite H3; reflexivity|].
    rewrite H3. destruct (uid_eqb u v); auto. }
  apply H. destruct (ev_kern ev), (ev_locks ev); cbn [w_reg set_kern set_clock set_reg];
    try destruct (r_map (w_reg w) u); reflexivity.
Qed.

Definition qev (b : bool) (env : list envev) : Prop := b = true -> Forall quiet env.

Lemma linv_env b w0 ph w ev env : qev b (ev :: env) ->
  linv b w0 ph w -> linv b w0 ph (set_env (apply_env u fd ev w) env).
Proof.
  intros Hq []. pose proof (apply_env_fields ev w env) as (F1 & F2 & F3 & F4 & F5 & F6 & F7 & F8 & _).
  pose proof (apply_env_reg ev w) as FR. pose proof (apply_env_kern ev w) as FK.
  pose proof (apply_env_inodes ev w) as FI.
  set (w' := set_env (apply_env u fd ev w) env) in *.
  change (w_reg (apply_env u fd ev w)) with (w_reg w') in FR.
  change (w_kern (apply_env u fd ev w)) with (w_kern w') in FK.
  change (w_inodes (apply_env u fd ev w)) with (w_inodes w') in FI.
  clearbody w'.
  assert (forall v, v <> u -> r_map (w_reg w') v = r_map (w_reg w) v) as R1.
  { intros v Hv. rewrite FR. destruct (ev_locks ev); auto. destruct (r_map (w_reg w) u); auto.
    apply reg_set_neq. congruence. }
  assert (data_of (w_reg w') u = data_of (w_reg w) u /\ waiting_of (w_reg w') u = waiting_of (w_reg w) u
          /\ (r_map (w_reg w) u <> None -> r_map (w_reg w') u <> None)
          /\ myl (locks_of (w_reg w') u) = myl (locks_of (w_reg w) u)) as (R2 & R3 & R4 & R5).
  { rewrite FR. destruct (ev_locks ev) as [L|]; auto.
    destruct (r_map (w_reg w) u) as [e|] eqn:Ee; [|repeat split; auto; congruence].
    unfold data_of, waiting_of, locks_of. rewrite reg_set_eq, Ee. repeat split; auto; try discriminate.
    apply mine_env_locks. }
  assert (r_pid (w_reg w') = r_pid (w_reg w)) as R6.
  { rewrite FR. destruct (ev_locks ev); auto. destruct (r_map (w_reg w) u); auto. }
  constructor; try congruence; auto.
  - rewrite F8. auto.
  - intros v Hv. rewrite FI, <- li_inodes0 by auto. destruct (ev_data ev); auto.
    now rewrite (proj2 (uid_eqb_neq u v)) by congruence.
  - rewrite FI, uid_eqb_refl. destruct (w_inodes w0 u).
    + destruct li_inode0 as (i' & -> & Hk). destruct (ev_data ev); eauto.
    + rewrite li_inode0. destruct (ev_data ev); auto.
  - intros v Hv. rewrite R1; auto.
  - rewrite FK. destruct (ev_kern ev); auto. rewrite li_pid0.
    rewrite filter_app', filter_idem, filter_none, app_nil_r; auto.
    intros x. rewrite negb_true_iff. auto.
  - intros Hb. specialize (Hq Hb). inversion Hq as [|? ? [Q1 Q2] Hq']; subst.
    rewrite FK, FR, Q1, Q2. auto.
Qed.

Lemma qev_tl b ev env : qev b (ev :: env) -> qev b env.
Proof. intros H Hb. specialize (H Hb). now inversion H. Qed.

(** Frames for io and for the waiter count *)
Lemma linv_io b w0 ph w io : incl io (w_io w) -> linv b w0 ph w -> linv b w0 ph (set_io w io).
Proof. intros Hi []. constructor; auto. eapply incl_tran; eauto. Qed.

Lemma linv_kernphase b w0 ph ph' w : is_reg ph = true -> is_reg ph' = true ->
  (ph' = PhKernWait -> 0 <= q_off q) -> linv b w0 ph w -> linv b w0 ph' w.
Proof.
  intros H1 H2 Ho []. rewrite H1 in *. destruct ph, ph'; try discriminate; constructor; auto; intros _; apply li_entry0; discriminate.
Qed.

Lemma wait_up b w0 w : linv b w0 PhReg w -> r_map (w_reg w) u <> None ->
  exists w', wait_count f 1 w = (Ok tt, w') /\ linv b w0 PhRegWait w'
    /\ w_clock w' = w_clock w /\ w_kern w' = w_kern w /\ locks_of (w_reg w') u = locks_of (w_reg w) u.
Proof.
  intros [] He. unfold wait_count, add_waiting. destruct (r_map (w_reg w) u) as [e|] eqn:Ee; [|congruence].
  eexists. split; [reflexivity|]. unfold waiting_of, data_of, locks_of in *. rewrite Ee in *.
  split; [|split; [reflexivity|split; [reflexivity|]]].
  - constructor; cbn [w_names w_fds w_newfd w_newino w_pid w_opts w_blk w_reg set_reg w_io w_inodes w_kern]; auto; try discriminate.
    + intros v Hv. rewrite reg_set_neq; auto.
    + unfold data_of at 1. now rewrite reg_set_eq.
    + unfold waiting_of at 1. rewrite reg_set_eq. cbn [e_waiting nwait] in *. unfold waiting_of. lia.
    + unfold locks_of at 1. rewrite reg_set_eq. auto.
    + intros _. rewrite reg_set_eq. discriminate.
    + unfold locks_of at 1. rewrite reg_set_eq. auto.
  - cbn [w_reg set_reg]. now rewrite (reg_set_eq (w_reg w) u).
Qed.
Lemma wait_down b w0 w : linv b w0 PhRegWait w ->
  exists w', wait_count f (-1) w = (Ok tt, w') /\ linv b w0 PhReg w'
    /\ w_clock w' = w_clock w /\ w_kern w' = w_kern w /\ locks_of (w_reg w') u = locks_of (w_reg w) u.
Proof.
  intros []. unfold wait_count, add_waiting. destruct (r_map (w_reg w) u) as [e|] eqn:Ee;
    [|exfalso; apply li_entry0; auto; discriminate].
  eexists. split; [reflexivity|]. unfold waiting_of, data_of, locks_of in *. rewrite Ee in *.
  split; [|split; [reflexivity|split; [reflexivity|]]].
  - constructor; cbn [w_names w_fds w_newfd w_newino w_pid w_opts w_blk w_reg set_reg w_io w_inodes w_kern]; auto; try discriminate.
    + intros v Hv. rewrite reg_set_neq; auto.
    + unfold data_of at 1. now rewrite reg_set_eq.
    + unfold waiting_of at 1. rewrite reg_set_eq. cbn [e_waiting nwait] in *. unfold waiting_of. lia.
    + unfold locks_of at 1. rewrite reg_set_eq. auto.
    + unfold locks_of at 1. rewrite reg_set_eq. auto.
  - cbn [w_reg set_reg]. now rewrite (reg_set_eq (w_reg w) u).
Qed.

(** Unregistering restores the table. *)
Lemma matches_filter_last (l1 l2 l0 : list lockrec) lk :
  myl (l1 ++ lk :: l2) = myl l0 ++ [rec] -> matches lk ->
  (forall x, In x l1 -> ~ matches x) -> (forall x, In x l0 -> ~ matches x) ->
  myl (l1 ++ l2) = myl l0.
Proof.
  intros E Hm H1 H0. rewrite filter_app' in *. cbn in E.
  rewrite (proj2 (Z.eqb_eq _ _) (proj1 Hm)) in E.
  destruct (myl l2) as [|x l2'] eqn:E2.
  - apply app_inj_tail in E. destruct E as [E _]. now rewrite app_nil_r.
  - exfalso. assert (exists l2'' y, x :: l2' = l2'' ++ [y]) as (l2'' & y & Ey).
    { destruct (@exists_last _ (x :: l2')) as (a & c & Ha); [discriminate|eauto]. }
    rewrite Ey in E. change (lk :: l2'' ++ [y]) with ((lk :: l2'') ++ [y]) in E.
    rewrite app_assoc in E. apply app_inj_tail in E. destruct E as [E _].
    apply (H0 lk); auto. assert (In lk (myl l0)) as Hin by (rewrite <- E; apply in_or_app; right; now left).
    apply filter_In in Hin. tauto.
Qed.
Lemma rec_matches : matches rec.
Proof. repeat split. Qed.

Lemma check_forking_id w : r_pid (w_reg w) = w_pid w -> check_forking (w_pid w) (w_reg w) = w_reg w.
Proof. intros H. unfold check_forking. now rewrite H, Z.eqb_refl. Qed.

Lemma unregister_ok b w0 ph w : is_reg ph = true -> linv b w0 ph w ->
  exists w', unregister f q w = (Ok tt, w') /\ linv b w0 PhReg w' /\ w_clock w' = w_clock w
    /\ w_kern w' = w_kern w /\ (forall lk, In lk (locks_of (w_reg w) u) -> lk_handle lk <> fd -> In lk (locks_of (w_reg w') u)).
Proof.
  intros Hr []. rewrite Hr in *. unfold unregister, unregister_file_lock. rewrite check_forking_id by auto.
  unfold try_unlocking_range.
  assert (ph <> PhReg) as Hph by (destruct ph; discriminate). specialize (li_entry0 Hph).
  assert (forall x, In x (locks_of (w_reg w0) u) -> ~ matches x) as Hn.
  { intros x Hx Hm. apply (li_free0 eq_refl x Hx); [apply Hm|]. now apply matches_conflict. }
  destruct (r_map (w_reg w) u) as [e|] eqn:Ee; [|congruence].
  assert (locks_of (w_reg w) u = e_locks e) as EL by (unfold locks_of; now rewrite Ee).
  rewrite EL in *.
  assert (In rec (e_locks e)) as Hrec.
  { assert (In rec (myl (e_locks e))) as H by (rewrite li_mine0; apply in_or_app; right; now left).
    apply filter_In in H. tauto. }
  destruct (delete_match (e_locks e) fd (q_off q) hi) as [locks'|] eqn:Ed.
  2:{ exfalso. apply (delete_match_none _ _ _ _ Ed rec Hrec). repeat split. }
  destruct (delete_match_split _ _ _ _ _ Ed) as (l1 & lk & l2 & E1 & E2 & M1 & M2 & M3 & M4).
  assert (matches lk) as Hm by (repeat split; auto).
  eexists. split; [reflexivity|].
  unfold waiting_of, data_of in *. rewrite Ee in *.
  assert (nwait ph = 0) as Hw by (destruct ph; try discriminate; auto). rewrite Hw in *.
  split; [|split; [reflexivity|split; [reflexivity|]]].
  - constructor; cbn [w_names w_fds w_newfd w_newino w_pid w_opts w_blk w_reg set_reg w_io w_inodes w_kern]; auto; try discriminate.
    + intros v Hv. rewrite reg_set_neq; auto.
    + unfold data_of at 1. now rewrite reg_set_eq.
    + unfold waiting_of at 1. rewrite reg_set_eq. cbn [e_waiting nwait] in *. unfold waiting_of. lia.
    + unfold locks_of at 1. rewrite reg_set_eq. cbn [e_locks is_reg]. rewrite app_nil_r.
      rewrite E2. rewrite E1 in li_mine0. eapply matches_filter_last; eauto.
    + intros Hb. destruct (li_quiet0 Hb) as [Q1 Q2]. split; auto.
      unfold locks_of at 1. rewrite reg_set_eq. cbn [e_locks is_reg]. rewrite app_nil_r, E2.
      rewrite E1 in Q2. clear - Q2 Hn Hm. revert Q2 Hn. generalize (locks_of (w_reg w0) u) as l0.
      intros l0 Q Hn. destruct (exists_last (l := lk :: l2)) as (a & y & Ha); [discriminate|].
      destruct l2 as [|z l2].
      * apply app_inj_tail in Q. destruct Q as [Q _]. now rewrite app_nil_r.
      * exfalso. rewrite Ha, app_assoc in Q. apply app_inj_tail in Q. destruct Q as [Q _].
        apply (Hn lk); auto. rewrite <- Q. apply in_or_app. right.
        destruct a; [discriminate|]. inversion Ha. now left.
  - intros x Hx Hh. cbn [w_reg set_reg]. unfold locks_of. rewrite (reg_set_eq (w_reg w) u). cbn [e_locks].
    rewrite E2. rewrite E1 in Hx. apply in_app_or in Hx. apply in_or_app.
    destruct Hx as [Hx|[<-|Hx]]; auto. congruence.
Qed.

(** * The outcome *)

(** Why an attempt failed: a record of another stream, another process, or [T]: the
    system call failed. *)
Definition refused (T : Prop) (w : world) : Prop :=
  (exists lk, In lk (locks_of (w_reg w) u) /\ conflicts_other lk fd (q_off q) hi (q_shared q))
  \/ ksetlk (w_kern w) (w_pid w) u (q_shared q) (q_off q) (kend (q_off q) (klen (q_length q))) = None
  \/ T.

Inductive outcome (T : Prop) (b : bool) (w0 : world) : res unit * world -> Prop :=
| OOk w1 K : linv b w0 PhKern w1 -> 0 <= q_off q ->
    ksetlk (w_kern w1) (w_pid w1) u (q_shared q) (q_off q) (kend (q_off q) (klen (q_length q))) = Some K ->
    outcome T b w0 (Ok tt, set_kern w1 K)
| OHang ph w : linv b w0 ph w -> refused T w ->
    (low_level_blocking f q = true \/ exists errno, check_timeout f q (w_clock w) errno = None) ->
    outcome T b w0 (Err EHang, w)
| OSame w lk : linv b w0 PhReg w -> In lk (locks_of (w_reg w) u) -> conflicts_same lk fd (q_off q) hi ->
    outcome T b w0 (Err ERuntime, w)
| OTimeout e errno w : linv b w0 PhReg w -> check_timeout f q (w_clock w) errno = Some e ->
    refused T w -> outcome T b w0 (Err e, w).

Lemma refused_mono T w w' : w_pid w' = w_pid w -> w_kern w' = w_kern w ->
  (forall lk, In lk (locks_of (w_reg w) u) -> lk_handle lk <> fd -> In lk (locks_of (w_reg w') u)) ->
  refused T w -> refused T w'.
Proof.
  intros E1 E2 H [(lk & Hin & Hc)|[Hk|Ht]].
  - left. exists lk. split; auto. apply H; auto. apply Hc.
  - right; left. now rewrite E1, E2.
  - now right; right.
Qed.

Lemma lock_pre_cases w : exists io, incl io (w_io w) /\
  ((exists v, lock_pre fd (q_shared q) (q_off q) w = (Ok v, set_io w io) /\ 0 <= q_off q)
   \/ (exists e, lock_pre fd (q_shared q) (q_off q) w = (Err (EOS e), set_io w io))).
Proof.
  assert (forall x : world, set_io x (w_io x) = x) as Hid by (intros []; reflexivity).
  unfold lock_pre, bind, get_fd. destruct (w_fds w fd) as [o|].
  2:{ exists (w_io w). split; [apply incl_refl|]. right. eexists. now rewrite Hid. }
  destruct (w_inodes w (o_uid o)) as [i|].
  2:{ exists (w_io w). split; [apply incl_refl|]. right. eexists. now rewrite Hid. }
  rewrite next_io_eq. exists (tl (w_io w)). split; [apply incl_tl_refl|].
  destruct (hd IoFull (w_io w)).
  - unfold raise. destruct (Z.ltb_spec (q_off q) 0); [right; eexists; reflexivity|].
    destruct (if q_shared q then _ else _); [right; eexists; reflexivity|left; eexists; split; [reflexivity|lia]].
  - unfold raise. destruct (Z.ltb_spec (q_off q) 0); [right; eexists; reflexivity|].
    destruct (if q_shared q then _ else _); [right; eexists; reflexivity|left; eexists; split; [reflexivity|lia]].
  - right; eexists; reflexivity.
Qed.

Section Outcome.
Variables (T : Prop) (b : bool) (w0 : world).
(** [T] accounts for every failing system call. *)
Hypothesis HT : forall ph w w2 e, linv b w0 ph w ->
  lock_pre fd (q_shared q) (q_off q) w = (Err (EOS e), w2) -> T.

Lemma fail_outcome ph e errno w : linv b w0 ph w -> is_reg ph = true ->
  check_timeout f q (w_clock w) errno = Some e -> refused T w ->
  outcome T b w0 (l_fail true e w).
Proof.
  intros L Hr Hc Hf. destruct (unregister_ok _ _ _ _ Hr L) as (w' & E & L' & C & K & R).
  unfold l_fail. rewrite E. apply OTimeout with (errno := errno); auto.
  - now rewrite C.
  - eapply refused_mono; [|exact K|exact R|exact Hf].
    now rewrite (li_pid _ _ _ _ L), (li_pid _ _ _ _ L').
Qed.

Section Step.
Variable env : list envev.
Hypothesis IH : forall ev env' ph w, env = ev :: env' -> qev b env' -> linv b w0 ph w ->
  outcome T b w0 (lock_loop f q env' ph w).
Hypothesis Hq : qev b env.

Lemma wait_outcome ph w : linv b w0 ph w -> refused T w ->
  (low_level_blocking f q = true \/ exists errno, check_timeout f q (w_clock w) errno = None) ->
  outcome T b w0 (l_wait env ph w).
Proof.
  intros L Hf Hc. unfold l_wait. destruct env as [|ev env'] eqn:E.
  - eapply OHang; eauto.
  - eapply IH; eauto using qev_tl. eapply linv_env; eauto.
Qed.
Lemma sleep_outcome ph errno w : linv b w0 ph w -> (is_reg ph = true \/ ph = PhReg) -> refused T w ->
  outcome T b w0 (l_sleep env ph errno (is_reg ph) w).
Proof.
  intros L Hr Hf. unfold l_sleep. destruct (check_timeout f q (w_clock w) errno) eqn:E.
  - destruct Hr as [Hr| ->].
    + rewrite Hr. eapply fail_outcome; eauto.
    + cbn. eapply OTimeout; eauto.
  - apply wait_outcome; eauto.
Qed.
Lemma attempt_outcome ph w : linv b w0 ph w -> is_reg ph = true -> 0 <= q_off q -> outcome T b w0 (l_attempt env w).
Proof.
  intros L Hr Ho. unfold l_attempt, lock_attempt.
  destruct (ksetlk (w_kern w) (w_pid w) u (q_shared q) (q_off q) _) eqn:E.
  - eapply OOk; eauto. eapply linv_kernphase; [| | |eauto]; auto.
  - destruct (low_level_blocking f q) eqn:Eb.
    + apply wait_outcome; auto; [eapply linv_kernphase; [| | |eauto]; auto|unfold refused; auto].
    + apply (sleep_outcome PhKern); auto; [eapply linv_kernphase; [| | |eauto]; auto|unfold refused; auto].
Qed.
Lemma kern_outcome w : linv b w0 PhKern w -> outcome T b w0 (l_kern env w).
Proof.
  intros L. unfold l_kern. destruct (lock_pre_cases w) as (io & Hi & [(v & E & Ho)|(e & E)]); rewrite E.
  - eapply attempt_outcome with (ph := PhKern); auto. now apply linv_io.
  - apply (sleep_outcome PhKern); auto; [now apply linv_io|]. right; right. eapply HT; eauto.
Qed.
Lemma register_outcome first w : linv b w0 PhReg w -> outcome T b w0 (l_register env first w).
Proof.
  intros L. unfold l_register, register_once.
  assert ((if first then check_forking (w_pid w) (w_reg w) else w_reg w) = w_reg w) as Ef.
  { destruct first; auto. apply check_forking_id, (li_rpid _ _ _ _ L). }
  rewrite Ef.
  destruct (try_locking_range (w_reg w) u fd (q_length q) (q_off q) (q_shared q)) as [r reg] eqn:Et.
  destruct (try_locking_cases _ _ _ _ _ _ _ _ Et) as (LC & P1 & (e & Ee) & P3 & P4).
  destruct (P4 u) as [P5 P6].
  inversion LC as [r' Hfree HL|r' lk Hin Hc HL|r' lk Hin Hc HL]; subst r r'.
  - apply kern_outcome. destruct L. cbn [is_reg] in *. rewrite app_nil_r in *.
    constructor; cbn [w_names w_fds w_newfd w_newino w_pid w_opts w_blk w_reg set_reg w_io w_inodes w_kern]; auto; try discriminate.
    + congruence.
    + intros v Hv. rewrite P3; auto.
    + congruence.
    + cbn [nwait] in *. lia.
    + rewrite HL, filter_app'. cbn. rewrite Z.eqb_refl. congruence.
    + intros _. congruence.
    + intros _ lk Hlk Hh Hcs. assert (In lk (myl (locks_of (w_reg w0) u))) as Hm.
      { apply filter_In. split; auto. now apply Z.eqb_eq. }
      rewrite <- li_mine0 in Hm. apply filter_In in Hm. destruct Hm as [Hm _].
      destruct (Hfree lk Hm). contradiction.
    + intros Hb. destruct (li_quiet0 Hb) as [Q1 Q2]. split; auto. cbn [is_reg] in *.
      congruence.
  - assert (linv b w0 PhReg (set_reg w reg)) as L'.
    { destruct L. constructor; cbn [w_names w_fds w_newfd w_newino w_pid w_opts w_blk w_reg set_reg w_io w_inodes w_kern]; auto; try discriminate.
      - congruence.
      - intros v Hv. rewrite P3; auto.
      - congruence.
      - congruence.
      - now rewrite HL.
      - intros Hb. destruct (li_quiet0 Hb) as [Q1 Q2]. rewrite HL. auto. }
    assert (refused T (set_reg w reg)) as Hf.
    { left. exists lk. cbn [w_reg set_reg]. now rewrite HL. }
    destruct (low_level_blocking f q) eqn:Eb.
    + destruct (wait_up _ _ _ L') as (w2 & E2 & L2 & C2 & K2 & R2); [cbn; congruence|].
      rewrite E2. apply wait_outcome; auto. eapply refused_mono; [| | |exact Hf]; auto.
      * rewrite (li_pid _ _ _ _ L2), (li_pid _ _ _ _ L'). auto.
      * intros l Hl _. now rewrite R2.
    + apply (sleep_outcome PhReg); auto.
  - apply OSame with (lk := lk); auto.
    + destruct L. constructor; cbn [w_names w_fds w_newfd w_newino w_pid w_opts w_blk w_reg set_reg w_io w_inodes w_kern]; auto; try discriminate.
      * congruence.
      * intros v Hv. rewrite P3; auto.
      * congruence.
      * congruence.
      * now rewrite HL.
      * intros Hb. destruct (li_quiet0 Hb) as [Q1 Q2]. rewrite HL. auto.
    + cbn [w_reg set_reg]. now rewrite HL.
Qed.
End Step.

Theorem lock_loop_outcome : forall env ph w, qev b env -> linv b w0 ph w ->
  outcome T b w0 (lock_loop f q env ph w).
Proof.
  induction env as [|ev env IH]; intros ph w Hq L; rewrite lock_loop_eq.
  - assert (forall ev env' ph w, [] = ev :: env' -> qev b env' -> linv b w0 ph w ->
      outcome T b w0 (lock_loop f q env' ph w)) as IH by discriminate.
    destruct ph.
    + now apply register_outcome.
    + destruct (wait_down _ _ _ L) as (w' & E & L' & _). rewrite E. now apply register_outcome.
    + now apply kern_outcome.
    + eapply attempt_outcome; eauto. now apply (li_off _ _ _ _ L).
  - assert (forall ev' env' ph w, ev :: env = ev' :: env' -> qev b env' -> linv b w0 ph w ->
      outcome T b w0 (lock_loop f q env' ph w)) as IH'.
    { intros ev' env' ph' w' [= <- <-]. apply IH. }
    destruct ph.
    + now apply register_outcome.
    + destruct (wait_down _ _ _ L) as (w' & E & L' & _). rewrite E. now apply register_outcome.
    + now apply kern_outcome.
    + eapply attempt_outcome; eauto. now apply (li_off _ _ _ _ L).
Qed.
End Outcome.
End Loop.
