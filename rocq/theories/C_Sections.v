(** Final theorems of C72: what several buffered streams do between lock_file() and
    unlock_file() of the whole file is as if each section was executed alone. *)
From Coq Require Import ZArith Ascii String List Bool Lia.
From Verif Require Import M_Base M_Modes M_Registry M_Kernel M_World M_Raw M_Buffered S_Bytes S_Raw S_Locks S_LockFile
  S_Open S_Buffered S_Append S_Demo S_Sections P_Bytes P_Raw P_Registry P_Kernel P_LockFile P_Buffered P_BufOps P_BufRun P_Sections
  C_Buffered C_Append.
Import ListNotations.
Open Scope Z_scope.
Open Scope list_scope.

(** Streams just opened on the regular file [u] of content [c]; [ps]:
    their positions.  Nothing is locked by the process, and system calls work. *)
Record together (u : uid) (g : group) (c : list Z) (ps : nat -> Z) : Prop := mkTogether {
  tg_file : exists i, w_inodes (g_world g) u = Some i /\ n_kind i = KReg /\ n_data i = c;
  tg_env : w_env (g_world g) = [];
  tg_io : forall e, ~ In (IoErr e) (w_io (g_world g));
  tg_table : table (g_world g) u = [];
  tg_pending : pending (g_world g) u = [];
  tg_lawful : lawful (w_kern (g_world g));
  tg_streams : forall j k b, nth_error (g_streams g) j = Some (k, b) -> exists f size w o,
    b = fresh f size w /\ 0 < size /\ f_closed f = false /\ f_seekable f = true /\ uid_of f = u
    /\ w_fds (g_world g) (fd_of f) = Some o /\ o_uid o = u /\ o_app o = f_append f /\ o_pos o = ps j /\ 0 <= ps j
    /\ (k <> BWriter -> f_readable f = true) /\ f_writable f = negb (is_reader k)
    /\ (f_readable f = true -> o_rd o = true) /\ (f_writable f = true -> o_wr o = true);
  tg_distinct : forall j l k b k' b', nth_error (g_streams g) j = Some (k, b) -> nth_error (g_streams g) l = Some (k', b') ->
    j <> l -> fd_of (b_raw b) <> fd_of (b_raw b') }.

Definition nobody : nat -> bool := fun _ => false.

Lemma together_inv u g c ps : together u g c ps -> exists i, ginv u g c ps nobody nobody (fun _ => true) i.
Proof.
  intros [(i & Ei & Ek & Ed) Ev Io Tb Pe La St Di]. exists i. constructor; auto; try discriminate.
  - intros j k b N. destruct (St j k b N) as (f & size & w & o & -> & Hs & Hc & Hk & Hu & Eo & Hou & Ha & Hp & Hn & Hr & Hw & Or & Ow).
    constructor; cbn [fresh b_raw b_rbuf b_wbuf nobody]; auto.
    + exists o. split; [|auto]. change (set_world (fresh f size w) (g_world g)) with (fresh f size (g_world g)). rewrite <- Hp.
      apply fresh_rep; auto.
      * constructor; auto; [now rewrite Hou|lia].
      * intros K. apply Hr. destruct k; discriminate.
      * intros K. rewrite Hw. destruct k; try discriminate; reflexivity.
    + intros _ _. reflexivity.
    + unfold mine. now rewrite Tb.
  - rewrite Tb. intros lk [].
  - intros X. split; [exact La|]. discriminate.
Qed.

Lemma kind_same u acts : forall (g : group), (forall l, kind_of (snd (run_gacts u acts g)) l = kind_of g l).
Proof.
  induction acts as [|a acts IH]; intros g l; cbn [run_gacts]; [reflexivity|].
  destruct (run_gact u a g) as [out g1] eqn:E. specialize (IH g1 l). destruct (run_gacts u acts g1) as [outs g2]. cbn [snd] in *.
  rewrite IH.
  assert (X : forall j F, on_stream g j F = (out, g1) -> kind_of g1 l = kind_of g l).
  { intros j F. unfold on_stream. destruct (nth_error (g_streams g) j) as [[k b]|] eqn:N; [|intros [= _ <-]; reflexivity].
    destruct (F k _) as [o2 b2]. intros [= _ <-]. now apply kind_other with (b := b). }
  destruct a; cbn [run_gact] in E; try (eapply X; exact E); injection E as _ <-; reflexivity.
Qed.

(** The raw streams stay what they are. *)
Definition same_raws (g g' : group) : Prop := forall j k b, nth_error (g_streams g) j = Some (k, b) ->
  exists b', nth_error (g_streams g') j = Some (k, b') /\ b_raw b' = b_raw b.
Lemma same_raws_refl g w : same_raws g (mkGroup (g_streams g) w).
Proof. intros j k b N. exists b. auto. Qed.
Lemma same_raws_replace g j k b b' w : nth_error (g_streams g) j = Some (k, b) -> b_raw b' = b_raw b ->
  same_raws g (mkGroup (replace j (k, b') (g_streams g)) w).
Proof.
  intros N Er l k2 b2 N2. cbn [g_streams]. destruct (Nat.eq_dec l j) as [->|Hl].
  - exists b'. rewrite (replace_same _ _ _ _ N). split; congruence.
  - exists b2. rewrite replace_other by auto. auto.
Qed.
Lemma same_app g g' : same_raws g g' -> (forall l, kind_of g' l = kind_of g l) -> forall l, app_of g' l = app_of g l.
Proof.
  intros H K l. unfold app_of. destruct (nth_error (g_streams g) l) as [[k b]|] eqn:N.
  - destruct (H l k b N) as (b' & -> & ->). reflexivity.
  - specialize (K l). unfold kind_of in K. rewrite N in K. destruct (nth_error (g_streams g') l); [discriminate|reflexivity].
Qed.
Lemma sstep_kind kind kind' app app' s a out s' : (forall l, kind l = kind' l) -> (forall l, app l = app' l) ->
  sstep kind app s a out s' -> sstep kind' app' s a out s'.
Proof.
  intros K A H. inversion H; subst; clear H; try (constructor; auto; fail).
  - apply SS_lock. intros l k Hk Hh. rewrite <- K in Hk. rewrite <- K. eauto.
  - apply SS_op with (k := k); auto; [now rewrite <- K|now rewrite <- A].
  - apply SS_data. intros l k Hk. rewrite <- K in Hk. eauto.
Qed.

(** [safe]: no other process writes, or every stream locks exclusively. *)
Lemma runs_serial u : forall acts (g : group) c ps held cl i,
  ginv u g c ps held held cl i ->
  (forall d, In (GData d) acts -> unread_only g) ->
  forall outs g', run_gacts u acts g = (outs, g') -> obeys u held cl acts g ->
  exists c' ps' held' cl' i', sruns (kind_of g) (app_of g) (c, ps, held) acts outs (c', ps', held') /\ ginv u g' c' ps' held' held' cl' i'.
Proof.
  induction acts as [|a acts IH]; intros g c ps held cl i G Sf outs g' E O; cbn [run_gacts obeys] in E, O.
  { injection E as <- <-. exists c, ps, held, cl, i. split; [constructor|exact G]. }
  destruct (run_gact u a g) as [out g1] eqn:E1. destruct (run_gacts u acts g1) as [outs2 g2] eqn:E2. injection E as <- <-.
  destruct O as [Pm O].
  assert (Kg : forall l, kind_of g1 l = kind_of g l).
  { intros l. pose proof (kind_same u [a] g l) as X. cbn [run_gacts] in X. rewrite E1 in X. exact X. }
  assert (Sf1 : forall d, In (GData d) acts -> unread_only g1).
  { intros d Hd j k b N. specialize (Sf d (or_intror Hd)). assert (X : kind_of g1 j = Some k) by (apply kind_nth; eauto).
    rewrite Kg in X. apply kind_nth in X. destruct X as (b0 & N0). eapply Sf; eauto. }
  assert (Fin : forall c1 ps1 held1 cl1 i1, sstep (kind_of g) (app_of g) (c, ps, held) a out (c1, ps1, held1) ->
     ginv u g1 c1 ps1 held1 held1 cl1 i1 -> same_raws g g1 -> held1 = held_after held a out -> cl1 = clean_after cl a out ->
     exists c' ps' held' cl' i', sruns (kind_of g) (app_of g) (c, ps, held) (a :: acts) (out :: outs2) (c', ps', held') /\ ginv u g2 c' ps' held' held' cl' i').
  { intros c1 ps1 held1 cl1 i1 S G1 Rw -> ->. pose proof (same_app _ _ Rw Kg) as Ka. destruct (IH g1 c1 ps1 _ _ i1 G1 Sf1 _ _ E2 O) as (c' & ps' & held' & cl' & i' & R & G').
    exists c', ps', held', cl', i'. split; [|exact G']. apply (SR_cons _ _ _ _ _ _ _ _ _ S).
    clear -R Kg Ka. remember (c1, ps1, held_after held a out) as s1. remember (c', ps', held') as s2. clear Heqs1 Heqs2.
    induction R as [|s a0 o0 s3 acts0 outs0 s4 St R IHR]; [constructor|]. apply SR_cons with (s1 := s3); [|exact IHR].
    eapply sstep_kind; eauto. }
  assert (St : forall j F, on_stream g j F = (out, g1) -> kind_of g j <> None -> exists k b o2 b2,
     nth_error (g_streams g) j = Some (k, b) /\ F k (set_world b (g_world g)) = (o2, b2) /\ out = o2
     /\ g1 = mkGroup (replace j (k, b2) (g_streams g)) (b_w b2)).
  { intros j F. unfold on_stream, kind_of. destruct (nth_error (g_streams g) j) as [[k b]|] eqn:N; [|intros _ X; exfalso; apply X; reflexivity].
    destruct (F k _) as [o2 b2] eqn:EF. intros [= <- <-] _. exists k, b, o2, b2. auto. }
  destruct a as [j t|j op|j|K|d]; cbn [run_gact] in E1; cbn [permitted] in Pm.
  - destruct Pm as [Hk Hh]. destruct (St _ _ E1 Hk) as (k & b & o2 & b2 & N & EF & -> & ->).
    destruct (b_lock_file k t PNone PNone 0 SNone (set_world b (g_world g))) as [r b3] eqn:El.
    assert (Hr : r <> Err EHang).
    { intros ->. cbn in EF. injection EF as <- <-. congruence. }
    assert (b3 = b2) by (destruct r; cbn in EF; congruence). subst b3.
    destruct (step_lock _ _ _ _ _ _ _ _ _ _ _ _ _ G N El Hr) as (Rw & i' & [((e & ->) & G1)|((x & ->) & Ro & G1)]); cbn in EF; injection EF as <-.
    + apply (Fin c ps held cl i'); auto; [apply SS_refused|eapply same_raws_replace; eauto].
    + apply (Fin c ps (set_at held j true) (set_at cl j true) i'); auto; [|eapply same_raws_replace; eauto]. apply SS_lock.
      intros l k2 Hk2 Hl. destruct (Ro l k2 Hk2 Hl) as (-> & -> & Hn). split; auto. split; auto. apply kind_nth. eauto.
  - destruct Pm as (Hk & Hh & Hd). destruct (St _ _ E1 Hk) as (k & b & o2 & b2 & N & EF & -> & ->).
    destruct (run_bop k op (set_world b (g_world g))) as [ro b3] eqn:Er. injection EF as <- <-.
    destruct (step_op _ _ _ _ _ _ _ _ _ _ _ _ _ _ G N Hh Er) as (c1 & p1 & i1 & B & G1 & _ & _ & Rw).
    { intros ->. apply Hd. apply kind_nth. eauto. }
    apply (Fin c1 (set_at ps j p1) held (set_at cl j (clean_next (cl j) op ro)) i1); auto; [|eapply same_raws_replace; eauto].
    apply SS_op with (k := k); auto. apply kind_nth. eauto.
  - destruct Pm as [Hk Hh]. destruct (St _ _ E1 Hk) as (k & b & o2 & b2 & N & EF & -> & ->).
    destruct (step_unlock _ _ _ _ _ _ _ _ _ _ _ G N Hh) as (b3 & i' & Eu & G1 & _ & Rw).
    rewrite Eu in EF. cbn in EF. injection EF as <- <-.
    apply (Fin c ps (set_at held j false) cl i'); auto; [now apply SS_unlock|eapply same_raws_replace; eauto].
  - injection E1 as <- <-. destruct Pm as [La Ow].
    apply (Fin c ps held cl i); auto; [apply SS_other| |apply same_raws_refl]. now apply step_other.
  - injection E1 as <- <-. destruct (step_data _ _ _ _ _ _ _ _ d G (Sf d (or_introl eq_refl)) Pm) as [No G1].
    apply (Fin d ps held cl (mkIno KReg d true)); auto; [now apply SS_data|apply same_raws_refl].
Qed.

(** Any mixture of calls by the streams, each working only while it holds the lock, and of
    locking and writing by other processes that hold their lock while writing: the results are
    those of a machine where the sections follow each other, every section starting from what
    the one before left, at the stream's own position.  Once nobody holds the lock, all of it
    is in the file. *)
Theorem C72_sections_are_serial_partial : forall u g c ps acts outs g',
  together u g c ps ->
  (* no other process writes, or every stream is writable (hence locks exclusively) *)
  (forall d, ~ In (GData d) acts) \/ unread_only g ->
  run_gacts u acts g = (outs, g') -> obeys u nobody (fun _ => true) acts g ->
  exists c' ps' held', sruns (kind_of g) (app_of g) (c, ps, nobody) acts outs (c', ps', held')
    /\ ((forall j k, kind_of g j = Some k -> held' j = false) -> holds_file (g_world g') u c')
    (* the streams that hold the lock: a single one, or readers only *)
    /\ (forall j l k k', kind_of g j = Some k -> kind_of g l = Some k' -> j <> l -> held' j = true -> held' l = true ->
        k = BReader /\ k' = BReader).
Proof.
  intros u g c ps acts outs g' T Sf E O. destruct (together_inv _ _ _ _ T) as (i & G).
  destruct (runs_serial u acts g c ps nobody _ i G) with (outs := outs) (g' := g') as (c' & ps' & held' & cl' & i' & R & G'); auto.
  { intros d Hd. destruct Sf as [Sf|Sf]; auto. exfalso. eapply Sf; eauto. }
  pose proof (kind_same u acts g) as Kg. rewrite E in Kg. cbn [snd] in Kg.
  exists c', ps', held'. split; [exact R|]. split.
  - intros H. exists i'. split; [apply (gi_ino _ _ _ _ _ _ _ _ G')|]. apply (gi_free _ _ _ _ _ _ _ _ G').
    intros j k Hk. apply (H j k). now rewrite <- Kg.
  - intros j l k k' Hj Hl Hn Hj2 Hl2. rewrite <- Kg in Hj, Hl. apply kind_nth in Hj. apply kind_nth in Hl.
    destruct Hj as (b & Nj), Hl as (b' & Nl). eapply (gi_excl _ _ _ _ _ _ _ _ G'); eauto.
Qed.

(** Streams of kinds [ks] on "f", just opened. *)
Fixpoint open_all (ap : bool) (ks : list bkind) (w : world) : list (bkind * rawio) * world :=
  match ks with
  | [] => ([], w)
  | k :: r => let '(f, w1) := demo_open "f" (match k with BWriter => false | _ => true end)
                                         (match k with BReader => false | _ => true end) (ap && match k with BReader => false | _ => true end) w in
              let '(fs, w2) := open_all ap r w1 in ((k, f) :: fs, w2)
  end.
Definition demo_group (ks : list bkind) (data : list Z) (io : list ioev) : group :=
  let '(fs, w) := open_all false ks (demo data io [] []) in
  mkGroup (map (fun x => (fst x, fresh (snd x) 8 w)) fs) w.
Definition start : nat -> Z := fun _ => 0.

Ltac vm_hyp N := let T := type of N in let T2 := eval vm_compute in T in
  let M := fresh in assert (M : T2) by (vm_cast_no_check N); clear N; rename M into N.
Lemma demo_pair k1 k2 data : together (1, 10) (demo_group [k1; k2] data []) data start.
Proof.
  destruct k1, k2;
  (constructor;
   [ eexists; split; [vm_compute; reflexivity|split; reflexivity]
   | vm_compute; reflexivity | intros e [] | vm_compute; reflexivity | vm_compute; reflexivity | intros s1 s2 b []
   | intros [|[|[|j]]] k b N; vm_hyp N; try discriminate; injection N as <- <-;
     (eexists _, _, _, _; split; [reflexivity|]; split; [lia|]; split; [reflexivity|]; split; [reflexivity|]; split; [reflexivity|];
      split; [vm_compute; reflexivity|]; cbn; repeat split; auto; try (unfold start; lia); try congruence)
   | intros [|[|[|j]]] [|[|[|l]]] k b k' b' N N' Hn; vm_hyp N; vm_hyp N'; try discriminate; try congruence;
     injection N as <- <-; injection N' as <- <-; discriminate ]).
Qed.

(** Two streams count up the same byte; a process in between sets it to 40. *)
Definition count_up (j : nat) (v : Z) : list gact :=
  [GLock j (PInt 0); GOp j (BoSeek 0 0); GOp j (BoRead (Some 1)); GOp j (BoSeek 0 0); GOp j (BoWrite [v]); GUnlock j].
Definition taken : klocks := [mkSeg 200 (1, 10) false 0 None].
Definition race : list gact :=
  count_up 0 6 ++ [GLock 0 (PInt 0); GLock 1 (PInt 0); GUnlock 0] ++ count_up 1 7
  ++ [GOther taken; GLock 1 (PInt 0); GData [40]; GOther []] ++ count_up 0 41.
Example C72_example :
  let '(outs, g) := run_gacts (1, 10) race (demo_group [BRandom; BRandom] [5] []) in
  outs = [GGot; GRes (OInt 0); GRes (OBytes [5]); GRes (OInt 0); GRes (OInt 1); GReleased]
      ++ [GGot; GError (ELocking EPERM); GReleased]
      ++ [GGot; GRes (OInt 0); GRes (OBytes [6]); GRes (OInt 0); GRes (OInt 1); GReleased]
      ++ [GSilent; GError (ELocking EAGAIN); GSilent; GSilent]
      ++ [GGot; GRes (OInt 0); GRes (OBytes [40]); GRes (OInt 0); GRes (OInt 1); GReleased]
  /\ content (g_world g) (1, 10) = [41].
Proof. vm_compute. auto. Qed.

(** A check of [obeys] by computation. *)
Definition kseg_eqb (a b : kseg) : bool :=
  (k_pid a =? k_pid b) && uid_eqb (k_ino a) (k_ino b) && Bool.eqb (k_shared a) (k_shared b) && (k_lo a =? k_lo b) && oz_eqb (k_hi a) (k_hi b).
Fixpoint ksegs_eqb (a b : list kseg) : bool :=
  match a, b with [], [] => true | x :: a, y :: b => kseg_eqb x y && ksegs_eqb a b | _, _ => false end.
Definition lawfulb (K : klocks) : bool :=
  forallb (fun s1 => forallb (fun s2 => (k_pid s1 =? k_pid s2) || negb (uid_eqb (k_ino s1) (k_ino s2))
     || negb (areas_overlap (k_lo s1) (k_hi s1) (k_lo s2) (k_hi s2)) || (k_shared s1 && k_shared s2)) K) K.
Definition one_call (clean : bool) (op : bop) (out : rout) : bool :=
  match op, out with
  | BoSeek _ _, OInt _ | BoSeek _ _, OErr EValue => true
  | BoSeek _ _, _ | BoTruncate _, _ => clean
  | _, _ => true
  end.
Definition permittedb (kind : nat -> option bkind) (u : uid) (held cl : nat -> bool) (a : gact) (out : gout) (w : world) : bool :=
  match a with
  | GLock j _ => (match kind j with None => false | _ => true end) && (match out with GError EHang => false | _ => true end)
  | GOp j op => (match kind j with
                 | None => false
                 | Some BRandom => match out with GRes out => one_call (cl j) op out | _ => true end
                 | _ => true end) && held j
  | GUnlock j => (match kind j with None => false | _ => true end) && held j
  | GOther K => lawfulb K && ksegs_eqb (filter (fun s => k_pid s =? w_pid w) K) (filter (fun s => k_pid s =? w_pid w) (w_kern w))
  | GData _ => existsb (fun s => negb (k_pid s =? w_pid w) && uid_eqb (k_ino s) u && negb (k_shared s) && (k_lo s <=? 0)
                                 && oz_eqb (k_hi s) None) (w_kern w)
  end.
Fixpoint obeysb (u : uid) (held cl : nat -> bool) (acts : list gact) (g : group) : bool :=
  match acts with
  | [] => true
  | a :: r => let '(out, g1) := run_gact u a g in
              permittedb (kind_of g) u held cl a out (g_world g) && obeysb u (held_after held a out) (clean_after cl a out) r g1
  end.
Lemma oz_eqb_eq a b : oz_eqb a b = true -> a = b.
Proof. destruct a, b; cbn; try discriminate; auto. intros H. apply Z.eqb_eq in H. congruence. Qed.
Lemma ksegs_eqb_eq : forall a b, ksegs_eqb a b = true -> a = b.
Proof.
  induction a as [|x a IH]; intros [|y b]; cbn; try discriminate; auto. unfold kseg_eqb. rewrite !andb_true_iff.
  intros [[[[[A1 A2] A3] A4] A5] H]. f_equal; [|auto]. apply Z.eqb_eq in A1, A4. apply P_Registry.uid_eqb_eq in A2. apply eqb_prop in A3.
  apply oz_eqb_eq in A5. destruct x, y; cbn in *. congruence.
Qed.
Lemma lawfulb_ok K : lawfulb K = true -> lawful K.
Proof.
  unfold lawfulb. intros H s1 s2 b I1 I2 Hp Hu B1 B2. rewrite forallb_forall in H. specialize (H s1 I1).
  rewrite forallb_forall in H. specialize (H s2 I2).
  assert (Ho : areas_overlap (k_lo s1) (k_hi s1) (k_lo s2) (k_hi s2) = true) by (apply overlap_spec; exists b; auto).
  rewrite Ho, Hu, P_Registry.uid_eqb_refl in H. apply Z.eqb_neq in Hp. rewrite Hp in H. cbn in H. now apply andb_true_iff in H.
Qed.
Lemma permittedb_ok kind u held cl a out w : permittedb kind u held cl a out w = true -> permitted kind u held cl a out w.
Proof.
  destruct a as [j t|j op|j|K|d]; cbn; rewrite ?andb_true_iff.
  - intros [H1 H2]. split; [destruct (kind j); congruence|]. intros ->. discriminate.
  - intros [H1 H2]. split; [destruct (kind j); congruence|]. split; auto. intros Hk. rewrite Hk in H1.
    destruct out; auto. destruct op; cbn in *; auto; destruct r; try (destruct e); auto.
  - intros [H1 H2]. split; [destruct (kind j); congruence|auto].
  - intros [H1 H2]. split; [now apply lawfulb_ok|now apply ksegs_eqb_eq].
  - intros H. apply existsb_exists in H. destruct H as (s & Hs & H). rewrite !andb_true_iff, !negb_true_iff in H.
    destruct H as ((((H1 & H2) & H3) & H4) & H5). exists (k_pid s). split; [now apply Z.eqb_neq|]. intros b Hb.
    exists s. apply P_Registry.uid_eqb_eq in H2. apply oz_eqb_eq in H5. apply Z.leb_le in H4.
    split; [exact Hs|]. split; [reflexivity|]. split; [exact H2|]. split; [exact H3|]. rewrite H5. split; [lia|auto].
Qed.
Lemma obeysb_ok u : forall acts held cl g, obeysb u held cl acts g = true -> obeys u held cl acts g.
Proof.
  induction acts as [|a acts IH]; intros held cl g; cbn [obeysb obeys]; auto.
  destruct (run_gact u a g) as [out g1]. rewrite andb_true_iff. intros [H1 H2]. split; [now apply permittedb_ok|auto].
Qed.

Example C72_hypotheses :
  together (1, 10) (demo_group [BRandom; BRandom] [5] []) [5] start
  /\ unread_only (demo_group [BRandom; BRandom] [5] [])
  /\ obeys (1, 10) nobody (fun _ => true) race (demo_group [BRandom; BRandom] [5] []).
Proof.
  split; [apply demo_pair|]. split.
  - intros [|[|[|j]]] k b N; vm_hyp N; try discriminate; injection N as <- <-; discriminate.
  - apply obeysb_ok. vm_compute. reflexivity.
Qed.

(** Readers share the lock: the example with no other process. *)
Example C72_readers :
  let acts := [GLock 0 (PInt 0); GLock 1 (PInt 0); GOp 1 (BoRead (Some 2)); GOp 0 (BoRead None); GUnlock 0; GOp 1 (BoRead None); GUnlock 1] in
  let g := demo_group [BReader; BReader] [1;2;3] [] in
  fst (run_gacts (1, 10) acts g) = [GGot; GGot; GRes (OBytes [1;2]); GRes (OBytes [1;2;3]); GReleased; GRes (OBytes [3]); GReleased]
  /\ obeysb (1, 10) nobody (fun _ => true) acts g = true.
Proof. vm_compute. auto. Qed.

(** With readers of the same process and a writer of another one it fails: the first
    unlock_file() gives back the kernel's lock of the whole process, and the other process
    gets it while the second reader is still in its section. *)
Definition serial_with_readers : Prop := forall u g c ps acts outs g',
  together u g c ps -> run_gacts u acts g = (outs, g') -> obeys u nobody (fun _ => true) acts g ->
  exists s, sruns (kind_of g) (app_of g) (c, ps, nobody) acts outs s.
Definition intruder : list gact :=
  [GLock 0 (PInt 0); GLock 1 (PInt 0); GOp 1 (BoRead (Some 1)); GUnlock 0; GOther taken; GData [7;8;9]; GOp 1 (BoSeek 0 0); GOp 1 (BoRead None)].
Example C72_intruder :
  fst (run_gacts (1, 10) intruder (demo_group [BReader; BReader] [1;2;3] []))
  = [GGot; GGot; GRes (OBytes [1]); GReleased; GSilent; GSilent; GRes (OInt 0); GRes (OBytes [7;8;9])].
Proof. vm_compute. reflexivity. Qed.
Lemma sruns_inv kind app s a acts out outs s2 : sruns kind app s (a :: acts) (out :: outs) s2 ->
  exists s1, sstep kind app s a out s1 /\ sruns kind app s1 acts outs s2.
Proof. intros H. inversion H; subst. eauto. Qed.
Theorem C72_shared_sections_refuted : ~ serial_with_readers.
Proof.
  intros H. set (g := demo_group [BReader; BReader] [1;2;3] []).
  destruct (run_gacts (1, 10) intruder g) as [outs g'] eqn:E.
  assert (O : obeysb (1, 10) nobody (fun _ => true) intruder g = true) by (vm_compute; reflexivity).
  destruct (H (1, 10) g [1;2;3] start intruder outs g' (demo_pair _ _ _) E (obeysb_ok _ _ _ _ _ O)) as (s & R).
  assert (Eo : outs = [GGot; GGot; GRes (OBytes [1]); GReleased; GSilent; GSilent; GRes (OInt 0); GRes (OBytes [7;8;9])]).
  { rewrite <- C72_intruder. unfold g in E. now rewrite E. }
  subst outs. unfold intruder in R.
  apply sruns_inv in R. destruct R as (s1 & S1 & R). inversion S1; subst; clear S1.
  apply sruns_inv in R. destruct R as (s2 & S2 & R). inversion S2; subst; clear S2.
  apply sruns_inv in R. destruct R as (s3 & S3 & R). inversion S3; subst; clear S3.
  apply sruns_inv in R. destruct R as (s4 & S4 & R). inversion S4; subst; clear S4.
  apply sruns_inv in R. destruct R as (s5 & S5 & R). inversion S5; subst; clear S5.
  apply sruns_inv in R. destruct R as (s6 & S6 & R). inversion S6; subst; clear S6.
  match goal with X : forall l k, kind_of g l = Some k -> _ = false |- _ => specialize (X 1%nat BReader eq_refl); discriminate X end.
Qed.

Print Assumptions C72_sections_are_serial_partial.
Print Assumptions C72_shared_sections_refuted.
