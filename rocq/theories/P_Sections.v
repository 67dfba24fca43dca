(** Several buffered streams on one file: running them, and the invariant of C72. *)
From Coq Require Import ZArith Ascii String List Bool Lia.
From Verif Require Import M_Base M_Modes M_Registry M_Kernel M_World M_Raw M_Buffered M_Waiting S_Bytes S_Raw S_Locks S_LockFile
  S_Open S_Buffered S_Append S_Sections P_Bytes P_Raw P_Registry P_Kernel P_Close P_Frame P_Lock P_LockFile P_Open P_Buffered P_BufOps P_BufRun P_Turns C_Lock C_Buffered C_Append.
Import ListNotations.
Open Scope Z_scope.
Open Scope list_scope.

(** * Running *)

(** The streams (the world in their states is not looked at) and the world. *)
Record group : Type := mkGroup { g_streams : list (bkind * bstate); g_world : world }.

Fixpoint replace {A} (j : nat) (x : A) (l : list A) : list A :=
  match l, j with
  | [], _ => []
  | _ :: r, O => x :: r
  | y :: r, S j => y :: replace j x r
  end.

Definition on_stream (g : group) (j : nat) (f : bkind -> bstate -> gout * bstate) : gout * group :=
  match nth_error (g_streams g) j with
  | None => (GSilent, g)
  | Some (k, b) => let '(out, b') := f k (set_world b (g_world g)) in
                   (out, mkGroup (replace j (k, b') (g_streams g)) (b_w b'))
  end.
Definition outcome_of {A} (good : gout) (x : res A * bstate) : gout * bstate :=
  match x with (Ok _, b) => (good, b) | (Err e, b) => (GError e, b) end.

Definition run_gact (u : uid) (a : gact) (g : group) : gout * group :=
  match a with
  | GLock j t => on_stream g j (fun k b => outcome_of GGot (b_lock_file k t PNone PNone 0 SNone b))
  | GOp j op => on_stream g j (fun k b => let '(out, b') := run_bop k op b in (GRes out, b'))
  | GUnlock j => on_stream g j (fun k b => outcome_of GReleased (b_unlock_file k PNone PNone 0 b))
  | GOther K => (GSilent, mkGroup (g_streams g) (set_kern (g_world g) K))
  | GData d => (GSilent, mkGroup (g_streams g) (upd_ino (g_world g) u (mkIno KReg d true)))
  end.
Fixpoint run_gacts (u : uid) (acts : list gact) (g : group) : list gout * group :=
  match acts with
  | [] => ([], g)
  | a :: r => let '(out, g1) := run_gact u a g in let '(outs, g2) := run_gacts u r g1 in (out :: outs, g2)
  end.
Definition kind_of (g : group) (j : nat) : option bkind := option_map fst (nth_error (g_streams g) j).
Definition app_of (g : group) (j : nat) : bool :=
  match nth_error (g_streams g) j with Some (_, b) => f_append (b_raw b) | None => false end.
Fixpoint obeys (u : uid) (held cl : nat -> bool) (acts : list gact) (g : group) : Prop :=
  match acts with
  | [] => True
  | a :: r => let '(out, g1) := run_gact u a g in
              permitted (kind_of g) u held cl a out (g_world g)
              /\ obeys u (held_after held a out) (clean_after cl a out) r g1
  end.

Lemma replace_same {A} (l : list A) j x y : nth_error l j = Some y -> nth_error (replace j x l) j = Some x.
Proof. revert j. induction l as [|z l IH]; destruct j; cbn; try discriminate; auto. Qed.
Lemma replace_other {A} (l : list A) j n x : n <> j -> nth_error (replace j x l) n = nth_error l n.
Proof. revert j n. induction l as [|z l IH]; destruct j, n; cbn; auto; try congruence. Qed.
Lemma replace_fst (l : list (bkind * bstate)) j k b b' : nth_error l j = Some (k, b) ->
  forall n, option_map fst (nth_error (replace j (k, b') l) n) = option_map fst (nth_error l n).
Proof.
  intros H n. destruct (Nat.eq_dec n j) as [->|N].
  - rewrite (replace_same _ _ _ _ H), H. reflexivity.
  - now rewrite replace_other.
Qed.
Lemma set_at_same {A} (f : nat -> A) j x : set_at f j x j = x.
Proof. unfold set_at. now rewrite Nat.eqb_refl. Qed.
Lemma set_at_other {A} (f : nat -> A) j x l : l <> j -> set_at f j x l = f l.
Proof. intros H. unfold set_at. now apply Nat.eqb_neq in H as ->. Qed.

(** * The invariant *)

Definition is_reader (k : bkind) : bool := match k with BReader => true | _ => false end.

(** Stream [b] of kind [k], in world [w] where the file [u] is [i]: it stands for content [c] if
    it holds the lock, else for the file as it is, with nothing in its buffers. *)
Record sinv (u : uid) (w : world) (i : inode) (c : list Z) (k : bkind) (b : bstate) (p : Z) (held rg clean : bool) : Prop := mkSinv {
  si_rep : exists o, rep k (set_world b w) o i (if held then c else n_data i) p
             /\ o_uid o = u /\ o_app o = f_append (b_raw b)
             /\ (f_readable (b_raw b) = true -> o_rd o = true) /\ (f_writable (b_raw b) = true -> o_wr o = true);
  si_uid : uid_of (b_raw b) = u;
  si_kind : f_writable (b_raw b) = negb (is_reader k);
  si_idle : held = false -> b_rbuf b = [] /\ b_wbuf b = [];
  si_clean : clean_ok k clean b;
  si_reg : held = true -> rg = true;
  si_mine : mine w u (fd_of (b_raw b)) = if rg then [mkLock (fd_of (b_raw b)) (is_reader k) 0 None] else [] }.

Definition unread_only (g : group) : Prop := forall j k b, nth_error (g_streams g) j = Some (k, b) -> k <> BReader.

Record ginv (u : uid) (g : group) (c : list Z) (ps : nat -> Z) (held rg cl : nat -> bool) (i : inode) : Prop := mkGinv {
  gi_ino : w_inodes (g_world g) u = Some i;
  gi_kind : n_kind i = KReg;
  gi_env : w_env (g_world g) = [];
  gi_io : forall e, ~ In (IoErr e) (w_io (g_world g));
  gi_pending : pending (g_world g) u = [];
  gi_streams : forall j k b, nth_error (g_streams g) j = Some (k, b) -> sinv u (g_world g) i c k b (ps j) (held j) (rg j) (cl j);
  gi_inj : forall j l k b k' b', nth_error (g_streams g) j = Some (k, b) -> nth_error (g_streams g) l = Some (k', b') ->
             j <> l -> fd_of (b_raw b) <> fd_of (b_raw b');
  gi_excl : forall j l k b k' b', nth_error (g_streams g) j = Some (k, b) -> nth_error (g_streams g) l = Some (k', b') ->
             j <> l -> rg j = true -> rg l = true -> k = BReader /\ k' = BReader;
  gi_table : forall lk, In lk (table (g_world g) u) ->
             exists j k b, nth_error (g_streams g) j = Some (k, b) /\ lk_handle lk = fd_of (b_raw b);
  gi_free : (forall j k, kind_of g j = Some k -> held j = false) -> n_data i = c;
  gi_kern : unread_only g -> lawful (w_kern (g_world g))
            /\ forall j, kind_of g j <> None -> held j = true -> forall b, 0 <= b -> process_holds (g_world g) u false b }.

Lemma kind_nth g j k : kind_of g j = Some k <-> exists b, nth_error (g_streams g) j = Some (k, b).
Proof.
  unfold kind_of. destruct (nth_error (g_streams g) j) as [[k' b]|]; cbn; split.
  - intros [= ->]. eauto.
  - intros (b' & [= -> _]). reflexivity.
  - discriminate.
  - intros (b' & [=]).
Qed.

(** Only readers share the lock. *)
Lemma held_reg u g c ps held rg cl i j k b : ginv u g c ps held rg cl i -> nth_error (g_streams g) j = Some (k, b) ->
  held j = true -> rg j = true.
Proof. intros G N. apply (si_reg _ _ _ _ _ _ _ _ _ _ (gi_streams _ _ _ _ _ _ _ _ G _ _ _ N)). Qed.
Lemma held_excl u g c ps held rg cl i j l k b k' b' : ginv u g c ps held rg cl i ->
  nth_error (g_streams g) j = Some (k, b) -> nth_error (g_streams g) l = Some (k', b') -> j <> l ->
  held j = true -> held l = true -> k = BReader /\ k' = BReader.
Proof. intros G N N' Hn H H'. apply (gi_excl _ _ _ _ _ _ _ _ G j l k b k' b'); eauto using held_reg. Qed.

(** The stream as it is in another world that differs elsewhere. *)
Lemma sinv_world u w i c k b p h r cl w' i' c' : sinv u w i c k b p h r cl ->
  w_fds w' (fd_of (b_raw b)) = w_fds w (fd_of (b_raw b)) -> w_inodes w' u = Some i' -> n_kind i' = KReg ->
  (h = true -> n_data i' = n_data i /\ c' = c) ->
  mine w' u (fd_of (b_raw b)) = mine w u (fd_of (b_raw b)) ->
  sinv u w' i' c' k b p h r cl.
Proof.
  intros [(o & R & Hu & Ha & Hr & Hw) U K Id Cl Rg Mi] Ef Ei Ek Hh Em. constructor; auto; [|congruence].
  exists o. split; [|auto]. pose proof (rp_live _ _ _ _ _ _ R) as L.
  assert (L' : live (b_raw b) w' o i').
  { constructor; [rewrite Ef; apply L|rewrite Hu; exact Ei|exact Ek|apply L|apply L|apply L]. }
  assert (Ep : epos (set_world b w') o i' = epos (set_world b w) o i).
  { destruct h; [|rewrite !epos_clean; auto; apply (Id eq_refl)].
    unfold epos, write_pos. cbn [set_world b_wbuf]. now rewrite (proj1 (Hh eq_refl)). }
  destruct R. cbn [set_world b_raw b_w b_size b_rbuf b_rpos b_wbuf] in *.
  destruct h.
  - destruct (Hh eq_refl) as [Hd ->]. constructor; cbn [set_world b_raw b_w b_size b_rbuf b_rpos b_wbuf]; auto.
    + rewrite Ep, Hd. exact rp_c.
    + rewrite Ep. exact rp_p.
  - destruct (Id eq_refl) as [I1 I2]. constructor; cbn [set_world b_raw b_w b_size b_rbuf b_rpos b_wbuf]; auto.
    + now rewrite I2, write_at_nil.
    + rewrite Ep. exact rp_p.
    + unfold unread. cbn [set_world b_rbuf b_rpos]. rewrite I1. rewrite skipn_nil. apply slice_nil.
Qed.

(** The stream's own call. *)
Lemma sinv_self u w i c k b p h r cl (b' : bstate) o (i' : inode) (c' : list Z) (p' : Z) (h' r' cl' : bool) :
  sinv u w i c k b p h r cl -> w_fds w (fd_of (b_raw b)) = Some o ->
  forall o', evolves (set_world b w) b' o o' -> rep k b' o' i' (if h' then c' else n_data i') p' ->
  (h' = false -> b_rbuf b' = [] /\ b_wbuf b' = []) -> clean_ok k cl' b' -> (h' = true -> r' = true) ->
  mine (b_w b') u (fd_of (b_raw b)) = (if r' then [mkLock (fd_of (b_raw b)) (is_reader k) 0 None] else []) ->
  sinv u (b_w b') i' c' k b' p' h' r' cl'.
Proof.
  intros [(o1 & R & Hu & Ha & Hr & Hw) U K Id Cl Rg Mi] Eo o' V R' Id' Cl' Rg' Mi'.
  assert (o1 = o).
  { pose proof (lv_fd _ _ _ _ (rp_live _ _ _ _ _ _ R)) as X. cbn in X. congruence. }
  subst o1. pose proof (ev_raw _ _ _ _ V) as Er. cbn in Er. pose proof (ev_o _ _ _ _ V) as So.
  constructor; auto; rewrite ?Er; auto.
  exists o'. split; [|split; [|split; [|split]]].
  - now destruct b'.
  - now rewrite (so_uid _ _ So).
  - rewrite (so_app _ _ So). exact Ha.
  - rewrite (so_rd _ _ So). auto.
  - rewrite (so_wr _ _ So). auto.
Qed.

Lemma sinv_tame u g c ps held rg cl i j k b : ginv u g c ps held rg cl i -> nth_error (g_streams g) j = Some (k, b) ->
  exists o, w_fds (g_world g) (fd_of (b_raw b)) = Some o
    /\ rep k (set_world b (g_world g)) o i (if held j then c else n_data i) (ps j)
    /\ o_uid o = u /\ o_app o = f_append (b_raw b)
    /\ tameb False (set_world b (g_world g)) o /\ no_epipe (g_world g).
Proof.
  intros G N. destruct (gi_streams _ _ _ _ _ _ _ _ G _ _ _ N) as [(o & R & Hu & Ha & Hr & Hw) U K Id Cl Rg Mi].
  exists o. split; [apply (lv_fd _ _ _ _ (rp_live _ _ _ _ _ _ R))|]. split; [exact R|]. split; [exact Hu|]. split; [exact Ha|].
  split; [|intros X; apply (gi_io _ _ _ _ _ _ _ _ G _ X)].
  right. split; [apply (gi_io _ _ _ _ _ _ _ _ G)|]. auto.
Qed.

(** What a call of stream [j] that touches no lock does to everything else. *)
Lemma mine_reg w w' u h : w_reg w' = w_reg w -> w_pid w' = w_pid w -> mine w' u h = mine w u h.
Proof. intros E1 E2. unfold mine, table, registry_of. now rewrite E1, E2. Qed.
Lemma pending_reg w w' u : w_reg w' = w_reg w -> w_pid w' = w_pid w -> pending w' u = pending w u.
Proof. intros E1 E2. unfold pending, registry_of. now rewrite E1, E2. Qed.
Lemma holds_kern w w' u sh b : w_kern w' = w_kern w -> w_pid w' = w_pid w -> process_holds w u sh b -> process_holds w' u sh b.
Proof. intros E1 E2. unfold process_holds. now rewrite E1, E2. Qed.

Lemma reader_keeps c p op out c' p' : bastep (mkBacc true false) (c, p) op out (c', p') -> c' = c.
Proof. intros H. inversion H; subst; auto; discriminate. Qed.

Lemma reader_keeps_any app c p op out c' p' : opstep (mkBacc true false) app (c, p) op out (c', p') -> c' = c.
Proof.
  intros H. inversion H as [s o1 out1 s1 B|c0 p0 lag o1 out1 c1 p1 lag' A]; subst; [eapply reader_keeps; eauto|].
  inversion A; subst; auto; try discriminate. eapply reader_keeps; eauto.
Qed.

Lemma step_op u g c ps held rg cl i j k b op out b' :
  ginv u g c ps held rg cl i -> nth_error (g_streams g) j = Some (k, b) -> held j = true ->
  run_bop k op (set_world b (g_world g)) = (out, b') ->
  (k = BRandom -> disciplined (cl j) [(op, out)]) ->
  exists c' p' i', opstep (rights_of k) (app_of g j) (c, ps j) op out (c', p')
    /\ ginv u (mkGroup (replace j (k, b') (g_streams g)) (b_w b')) c' (set_at ps j p') held rg
            (set_at cl j (clean_next (cl j) op out)) i'
    /\ w_reg (b_w b') = w_reg (g_world g) /\ w_pid (b_w b') = w_pid (g_world g) /\ b_raw b' = b_raw b.
Proof.
  intros G N H E D. destruct (sinv_tame _ _ _ _ _ _ _ _ _ _ _ G N) as (o & Eo & R & Hu & Ha & T & P). rewrite H in R.
  pose proof (gi_streams _ _ _ _ _ _ _ _ G _ _ _ N) as S0.
  set (cl' := clean_next (cl j) op out).
  assert (X : exists o' i' c' p', rep k b' o' i' c' p' /\ evolves (set_world b (g_world g)) b' o o'
      /\ opstep (bacc_of k) (f_append (b_raw b)) (c, ps j) op out (c', p') /\ clean_ok k cl' b').
  { assert (D2 : k = BRandom -> disciplined (cl j) ((op, out) :: (if cl' then [(BoTruncate None, OUnit)] else []))).
    { intros Hk. specialize (D Hk). unfold cl', clean_next. destruct op; cbn in *; auto;
        destruct out; cbn in *; try tauto; try (destruct (cl j); cbn; tauto).
      destruct e; cbn in *; try tauto; destruct (cl j); cbn; tauto. }
    rewrite <- Ha. destruct (o_app o) eqn:Eap.
    - destruct (apstep_ok k _ o i c (ps j) op (cl j) R Eap T P (si_clean _ _ _ _ _ _ _ _ _ _ S0) out b' _ E D2)
        as (o' & i' & c' & p' & cl2 & R' & V & B & C & D3).
      exists o', i', c', p'. split; [exact R'|]. split; [exact V|]. split; [eapply OS_append; exact B|].
      intros Hk Hc. rewrite Hc in D3. specialize (D3 Hk). cbn in D3. apply C; tauto.
    - destruct (bstep_ok k _ o i c (ps j) op (cl j) R ltac:(now left) T P (si_clean _ _ _ _ _ _ _ _ _ _ S0) out b' _ E D2)
        as (o' & i' & c' & p' & cl2 & R' & V & B & C & D3).
      exists o', i', c', p'. split; [exact R'|]. split; [exact V|]. split; [apply OS_plain; exact B|].
      intros Hk Hc. rewrite Hc in D3. specialize (D3 Hk). cbn in D3. apply C; tauto. }
  destruct X as (o' & i' & c' & p' & R' & V & B & C). exists c', p', i'.
  assert (B' : opstep (rights_of k) (app_of g j) (c, ps j) op out (c', p')) by (unfold app_of; rewrite N; destruct k; exact B).
  split; [exact B'|].
  pose proof (ev_frame _ _ _ _ V) as F. pose proof (ev_raw _ _ _ _ V) as Er. cbn in F, Er.
  pose proof (rp_live _ _ _ _ _ _ R') as L'.
  assert (Ei : w_inodes (b_w b') u = Some i').
  { rewrite <- (lv_ino _ _ _ _ L'). f_equal. now rewrite (so_uid _ _ (ev_o _ _ _ _ V)), Hu. }
  assert (Hoth : forall l k2 b2, nth_error (g_streams g) l = Some (k2, b2) -> l <> j -> held l = true ->
             n_data i' = n_data i /\ c' = c).
  { intros l k2 b2 Nl Hl Hh. destruct (held_excl _ _ _ _ _ _ _ _ _ _ _ _ _ _ G N Nl ltac:(congruence) H Hh) as [-> ->].
    pose proof (reader_keeps_any _ _ _ _ _ _ _ B') as ->. split; [|reflexivity].
    assert (Q : forall bb oo ii cc pp, rep BReader bb oo ii cc pp -> n_data ii = cc).
    { intros bb oo ii cc pp []. rewrite rp_c. rewrite (rp_nowr eq_refl), write_at_nil. reflexivity. }
    rewrite (Q _ _ _ _ _ R'), (Q _ _ _ _ _ R). reflexivity. }
  split; [|split; [apply (fr_reg _ _ _ _ F)|split; [apply (fr_pid _ _ _ _ F)|exact Er]]].
  constructor; cbn [g_world g_streams].
  - exact Ei.
  - apply L'.
  - rewrite (fr_env _ _ _ _ F). apply (gi_env _ _ _ _ _ _ _ _ G).
  - intros e X. apply (gi_io _ _ _ _ _ _ _ _ G e), (fr_io _ _ _ _ F), X.
  - rewrite (pending_reg (g_world g)); [apply (gi_pending _ _ _ _ _ _ _ _ G)|apply (fr_reg _ _ _ _ F)|apply (fr_pid _ _ _ _ F)].
  - intros l k2 b2 Nl. destruct (Nat.eq_dec l j) as [->|Hl].
    + rewrite (replace_same _ _ _ _ N) in Nl. injection Nl as <- <-. rewrite !set_at_same, H.
      apply (sinv_self u (g_world g) i c k b (ps j) (held j) (rg j) (cl j) b' o i' c' p' true (rg j) cl' S0 Eo o' V); auto;
        [discriminate|intros _; eapply held_reg; eauto|].
      rewrite (mine_reg (g_world g)); [|apply (fr_reg _ _ _ _ F)|apply (fr_pid _ _ _ _ F)].
      apply (si_mine _ _ _ _ _ _ _ _ _ _ S0).
    + rewrite replace_other in Nl by auto. rewrite !set_at_other by auto.
      apply (sinv_world u (g_world g) i c k2 b2 _ _ _ _ (b_w b') i' c' (gi_streams _ _ _ _ _ _ _ _ G _ _ _ Nl)); auto.
      * apply (fr_fds _ _ _ _ F). apply (gi_inj _ _ _ _ _ _ _ _ G l j k2 b2 k b); auto.
      * apply L'.
      * intros Hh. apply (Hoth l k2 b2); auto.
      * apply mine_reg; [apply (fr_reg _ _ _ _ F)|apply (fr_pid _ _ _ _ F)].
  - intros x l k1 b1 k2 b2 N1 N2 Hx.
    assert (Y : forall x k1 b1, nth_error (replace j (k, b') (g_streams g)) x = Some (k1, b1) ->
              exists b0, nth_error (g_streams g) x = Some (k1, b0) /\ b_raw b1 = b_raw b0).
    { intros y ky by_ Ny. destruct (Nat.eq_dec y j) as [->|Hy].
      - rewrite (replace_same _ _ _ _ N) in Ny. injection Ny as <- <-. eauto.
      - rewrite replace_other in Ny by auto. eauto. }
    destruct (Y _ _ _ N1) as (a1 & M1 & ->), (Y _ _ _ N2) as (a2 & M2 & ->).
    apply (gi_inj _ _ _ _ _ _ _ _ G _ _ _ _ _ _ M1 M2 Hx).
  - intros x l k1 b1 k2 b2 N1 N2 Hx H1 H2.
    assert (Y : forall x k1 b1, nth_error (replace j (k, b') (g_streams g)) x = Some (k1, b1) ->
              exists b0, nth_error (g_streams g) x = Some (k1, b0)).
    { intros y ky by_ Ny. destruct (Nat.eq_dec y j) as [->|Hy].
      - rewrite (replace_same _ _ _ _ N) in Ny. injection Ny as <- <-. eauto.
      - rewrite replace_other in Ny by auto. eauto. }
    destruct (Y _ _ _ N1) as (a1 & M1), (Y _ _ _ N2) as (a2 & M2).
    apply (gi_excl _ _ _ _ _ _ _ _ G _ _ _ _ _ _ M1 M2 Hx H1 H2).
  - intros lk Hlk. unfold table, registry_of in Hlk. rewrite (fr_reg _ _ _ _ F), (fr_pid _ _ _ _ F) in Hlk.
    destruct (gi_table _ _ _ _ _ _ _ _ G lk Hlk) as (l & k2 & b2 & Nl & Hl). destruct (Nat.eq_dec l j) as [->|Hlj].
    + exists j, k, b'. split; [apply (replace_same _ _ _ _ N)|]. rewrite Er. congruence.
    + exists l, k2, b2. rewrite replace_other by auto. auto.
  - intros X. exfalso. assert (held j = false); [|congruence]. apply (X j k). unfold kind_of. cbn [g_streams].
    now rewrite (replace_same _ _ _ _ N).
  - intros X. destruct (gi_kern _ _ _ _ _ _ _ _ G) as [K1 K2].
    { intros y ky by_ Ny. destruct (Nat.eq_dec y j) as [->|Hy].
      - rewrite N in Ny. injection Ny as <- <-. apply (X j k b'). now apply (replace_same _ _ _ _ N).
      - apply (X y ky by_). cbn [g_streams]. now rewrite replace_other. }
    rewrite (fr_kern _ _ _ _ F). split; [exact K1|]. intros l Hl Hh z Hz.
    apply (holds_kern (g_world g)); [apply (fr_kern _ _ _ _ F)|apply (fr_pid _ _ _ _ F)|].
    apply (K2 l); auto. intros Y. apply Hl. unfold kind_of in *. cbn [g_streams]. now rewrite (replace_fst _ _ _ _ _ N).
Qed.

Lemma ginv_ext u g c ps held rg cl i ps' held' rg' cl' : ginv u g c ps held rg cl i ->
  (forall l, ps' l = ps l) -> (forall l, held' l = held l) -> (forall l, rg' l = rg l) -> (forall l, cl' l = cl l) ->
  ginv u g c ps' held' rg' cl' i.
Proof.
  intros [] E1 E2 E4 E3. constructor; auto.
  - intros j k b N. rewrite E1, E2, E3, E4. auto.
  - intros j l k b k' b' N N' H. rewrite !E4. eauto.
  - intros H. apply gi_free0. intros j k Hk. rewrite <- E2. eauto.
  - intros H. destruct (gi_kern0 H) as [A B]. split; auto. intros j. rewrite E2. apply B.
Qed.

Lemma ginv_update u g c ps held rg cl i j k b (b' : bstate) (c' : list Z) (p' : Z) (h' r' cl' : bool) (i' : inode) :
  ginv u g c ps held rg cl i -> nth_error (g_streams g) j = Some (k, b) -> b_raw b' = b_raw b ->
  w_inodes (b_w b') u = Some i' -> n_kind i' = KReg -> w_env (b_w b') = [] -> incl (w_io (b_w b')) (w_io (g_world g)) ->
  pending (b_w b') u = [] -> sinv u (b_w b') i' c' k b' p' h' r' cl' ->
  (forall h, h <> fd_of (b_raw b) -> mine (b_w b') u h = mine (g_world g) u h) ->
  (forall l k2 b2, nth_error (g_streams g) l = Some (k2, b2) -> l <> j ->
     w_fds (b_w b') (fd_of (b_raw b2)) = w_fds (g_world g) (fd_of (b_raw b2))
     /\ (held l = true -> n_data i' = n_data i /\ c' = c)) ->
  (r' = true -> forall l k2 b2, nth_error (g_streams g) l = Some (k2, b2) -> l <> j -> rg l = true -> k = BReader /\ k2 = BReader) ->
  (h' = false -> (forall l k2, kind_of g l = Some k2 -> l <> j -> held l = false) -> n_data i' = c') ->
  (unread_only g -> lawful (w_kern (b_w b'))
     /\ (h' = true \/ (exists l, l <> j /\ kind_of g l <> None /\ held l = true) -> forall z, 0 <= z -> process_holds (b_w b') u false z)) ->
  ginv u (mkGroup (replace j (k, b') (g_streams g)) (b_w b')) c' (set_at ps j p') (set_at held j h') (set_at rg j r') (set_at cl j cl') i'.
Proof.
  intros G N Er Ei Ek Ev Io Pe S' Mo Oth Ex Fr Ke.
  assert (Y : forall x k1 b1, nth_error (replace j (k, b') (g_streams g)) x = Some (k1, b1) ->
              (x = j /\ k1 = k /\ b1 = b') \/ (x <> j /\ nth_error (g_streams g) x = Some (k1, b1))).
  { intros x k1 b1 N1. destruct (Nat.eq_dec x j) as [->|Hx].
    - rewrite (replace_same _ _ _ _ N) in N1. injection N1 as <- <-. auto.
    - rewrite replace_other in N1 by auto. auto. }
  constructor; cbn [g_world g_streams]; auto.
  - intros e X. apply (gi_io _ _ _ _ _ _ _ _ G e), Io, X.
  - intros l k2 b2 Nl. destruct (Y _ _ _ Nl) as [(-> & -> & ->)|(Hl & Ml)].
    + now rewrite !set_at_same.
    + rewrite !set_at_other by auto. destruct (Oth l k2 b2 Ml Hl) as (A1 & A3).
      assert (A2 : fd_of (b_raw b2) <> fd_of (b_raw b)) by (apply (gi_inj _ _ _ _ _ _ _ _ G l j k2 b2 k b); auto).
      apply (sinv_world u (g_world g) i c k2 b2 _ _ _ _ (b_w b') i' c' (gi_streams _ _ _ _ _ _ _ _ G _ _ _ Ml)); auto.
  - intros x l k1 b1 k2 b2 N1 N2 Hx.
    assert (Y2 : forall x k1 b1, nth_error (replace j (k, b') (g_streams g)) x = Some (k1, b1) ->
              exists b0, nth_error (g_streams g) x = Some (k1, b0) /\ b_raw b1 = b_raw b0).
    { intros y ky by_ Ny. destruct (Y _ _ _ Ny) as [(-> & -> & ->)|(Hl & Ml)]; eauto. }
    destruct (Y2 _ _ _ N1) as (a1 & M1 & ->), (Y2 _ _ _ N2) as (a2 & M2 & ->).
    apply (gi_inj _ _ _ _ _ _ _ _ G _ _ _ _ _ _ M1 M2 Hx).
  - intros x l k1 b1 k2 b2 N1 N2 Hx H1 H2.
    destruct (Y _ _ _ N1) as [(-> & -> & ->)|(Hx1 & M1)], (Y _ _ _ N2) as [(-> & -> & ->)|(Hl1 & M2)].
    + congruence.
    + rewrite set_at_same in H1. rewrite set_at_other in H2 by auto. apply (Ex H1 l k2 b2 M2 Hl1 H2).
    + rewrite set_at_same in H2. rewrite set_at_other in H1 by auto. destruct (Ex H2 x k1 b1 M1 Hx1 H1). auto.
    + rewrite set_at_other in H1, H2 by auto. apply (gi_excl _ _ _ _ _ _ _ _ G _ _ _ _ _ _ M1 M2 Hx H1 H2).
  - intros lk Hlk. destruct (Z.eq_dec (lk_handle lk) (fd_of (b_raw b))) as [Hh|Hh].
    + exists j, k, b'. split; [apply (replace_same _ _ _ _ N)|]. now rewrite Er.
    + assert (X : In lk (mine (b_w b') u (lk_handle lk))) by (apply filter_In; split; [exact Hlk|apply Z.eqb_refl]).
      rewrite (Mo _ Hh) in X. apply filter_In in X. destruct X as [X _].
      destruct (gi_table _ _ _ _ _ _ _ _ G lk X) as (l & k2 & b2 & Nl & Hl).
      exists l, k2, b2. split; [|exact Hl]. rewrite replace_other; [exact Nl|]. intros ->. rewrite N in Nl. congruence.
  - intros X. apply Fr.
    + rewrite <- (set_at_same held j h'). apply (X j k). unfold kind_of. cbn [g_streams]. now rewrite (replace_same _ _ _ _ N).
    + intros l k2 Hk Hl. rewrite <- (set_at_other held j h' l Hl). apply (X l k2). unfold kind_of in *. cbn [g_streams].
      now rewrite (replace_fst _ _ _ _ _ N).
  - intros X. destruct Ke as [K1 K2].
    { intros y ky by_ Ny. destruct (Nat.eq_dec y j) as [->|Hy].
      - rewrite N in Ny. injection Ny as <- <-. apply (X j k b'). now apply (replace_same _ _ _ _ N).
      - apply (X y ky by_). cbn [g_streams]. now rewrite replace_other. }
    split; [exact K1|]. intros l Hl Hh z Hz. apply K2; auto.
    destruct (Nat.eq_dec l j) as [->|Hlj]; [left; now rewrite set_at_same in Hh|right].
    exists l. rewrite set_at_other in Hh by auto. split; auto. split; auto.
    intros Y3. apply Hl. unfold kind_of in *. cbn [g_streams]. now rewrite (replace_fst _ _ _ _ _ N).
Qed.

(** Before a lock or unlock call proper: the buffers are emptied. *)
Lemma step_reset u g c ps held rg cl i j k b :
  ginv u g c ps held rg cl i -> nth_error (g_streams g) j = Some (k, b) ->
  exists b2 o o2 i2, reset_buffers k (set_world b (g_world g)) = (Ok tt, b2)
    /\ w_fds (g_world g) (fd_of (b_raw b)) = Some o /\ o_uid o = u
    /\ evolves (set_world b (g_world g)) b2 o o2
    /\ rep k b2 o2 i2 (if held j then c else n_data i) (ps j) /\ b_rbuf b2 = [] /\ b_wbuf b2 = []
    /\ n_data i2 = (if held j then c else n_data i) /\ w_inodes (b_w b2) u = Some i2 /\ n_kind i2 = KReg
    /\ (forall l k2 b2, nth_error (g_streams g) l = Some (k2, b2) -> l <> j -> held l = true -> n_data i2 = n_data i)
    /\ o_uid o2 = u /\ o_app o2 = f_append (b_raw b).
Proof.
  intros G N. destruct (sinv_tame _ _ _ _ _ _ _ _ _ _ _ G N) as (o & Eo & R & Hu & Ha & T & P).
  destruct (reset_ok False k _ _ _ _ _ R T) as (r & b2 & o2 & i2 & E2 & V & R2 & [(-> & Er & Ew & Hc & Hp)|([] & _)]).
  pose proof (rp_live _ _ _ _ _ _ R2) as L2.
  exists b2, o, o2, i2. split; [exact E2|]. split; [exact Eo|]. split; [exact Hu|]. split; [exact V|].
  split; [exact R2|]. split; [exact Er|]. split; [exact Ew|]. split; [exact Hc|].
  split; [rewrite <- (lv_ino _ _ _ _ L2); f_equal; now rewrite (so_uid _ _ (ev_o _ _ _ _ V)), Hu|].
  split; [apply L2|]. split.
  - intros l k2 b3 Nl Hl Hh. destruct (held j) eqn:Hj; [|exact Hc].
    destruct (held_excl _ _ _ _ _ _ _ _ _ _ _ _ _ _ G N Nl ltac:(congruence) Hj Hh) as [-> ->].
    rewrite Hc. destruct R. rewrite rp_c, (rp_nowr eq_refl), write_at_nil. reflexivity.
  - split; [now rewrite (so_uid _ _ (ev_o _ _ _ _ V))|now rewrite (so_app _ _ (ev_o _ _ _ _ V))].
Qed.

Lemma kind_other g j k (b b' : bstate) w' l : nth_error (g_streams g) j = Some (k, b) ->
  kind_of (mkGroup (replace j (k, b') (g_streams g)) w') l = kind_of g l.
Proof. intros N. unfold kind_of. cbn [g_streams]. apply (replace_fst _ _ _ _ _ N). Qed.

Lemma mine_table w w' u h : table w' u = table w u -> mine w' u h = mine w u h.
Proof. intros E. unfold mine. now rewrite E. Qed.

(** The stream is put in the world after a call that only concerns locks. *)
Lemma rep_locking k b o i c p w' : rep k b o i c p -> locking_only (b_w b) w' -> rep k (set_world b w') o i c p.
Proof.
  intros [] L.
  constructor; cbn [set_world b_raw b_w b_size b_rbuf b_rpos b_wbuf]; auto.
  destruct rp_live. constructor; auto; [rewrite (lo_fds _ _ L)|rewrite (lo_inodes _ _ L)]; auto.
Qed.

Lemma lawful_spec K : lawful K <-> forall p1 p2 u sh1 sh2 z, kholds K p1 u sh1 z -> kholds K p2 u sh2 z -> p1 <> p2 -> sh1 = true /\ sh2 = true.
Proof.
  split.
  - intros L p1 p2 u sh1 sh2 z (s1 & I1 & <- & <- & <- & B1) (s2 & I2 & <- & E & <- & B2) Hn. apply (L s1 s2 z); auto.
  - intros L s1 s2 z I1 I2 Hp Hu B1 B2. apply (L (k_pid s1) (k_pid s2) (k_ino s1) (k_shared s1) (k_shared s2) z); auto.
    + exists s1. auto 6.
    + exists s2. auto 6.
Qed.
Lemma lawful_set K p u sh lo hi K' : lawful K -> ksetlk K p u sh lo hi = Some K' -> lawful K'.
Proof.
  rewrite !lawful_spec. intros L E p1 p2 v sh1 sh2 z H1 H2 Hn.
  pose proof (ksetlk_holds _ _ _ _ _ _ _ E) as S. pose proof (ksetlk_noconflict _ _ _ _ _ _ _ E) as C.
  apply S in H1. apply S in H2.
  destruct H1 as [(-> & -> & -> & Z1)|[H1 N1]], H2 as [(-> & X & -> & Z2)|[H2 N2]]; subst.
  - congruence.
  - destruct (C p2 sh2 z); auto.
  - destruct (C p1 sh1 z); auto.
  - apply (L p1 p2 v sh1 sh2 z); auto.
Qed.
Lemma lawful_unlock K p u lo hi : lawful K -> lawful (kunlock K p u lo hi).
Proof.
  rewrite !lawful_spec. intros L p1 p2 v sh1 sh2 z H1 H2 Hn.
  apply kunlock_holds in H1. apply kunlock_holds in H2. apply (L p1 p2 v sh1 sh2 z); tauto.
Qed.

Lemma held_mine u g c ps held rg cl i j k b : ginv u g c ps held rg cl i -> nth_error (g_streams g) j = Some (k, b) -> rg j = true ->
  In (mkLock (fd_of (b_raw b)) (is_reader k) 0 None) (table (g_world g) u).
Proof.
  intros G N H. pose proof (si_mine _ _ _ _ _ _ _ _ _ _ (gi_streams _ _ _ _ _ _ _ _ G _ _ _ N)) as M. rewrite H in M.
  assert (X : In (mkLock (fd_of (b_raw b)) (is_reader k) 0 None) (mine (g_world g) u (fd_of (b_raw b)))) by (rewrite M; now left).
  unfold mine in X. apply filter_In in X. tauto.
Qed.

Lemma whole_share : share_byte 0 None 0 None.
Proof. exists 0. split; split; auto; lia. Qed.

Lemma held_dec {A} (ls : list A) : forall held : nat -> bool,
  (exists l x, nth_error ls l = Some x /\ held l = true) \/ (forall l x, nth_error ls l = Some x -> held l = false).
Proof.
  induction ls as [|y ls IH]; intros held.
  - right. intros [|l] x; discriminate.
  - destruct (held O) eqn:H0; [left; exists O, y; auto|].
    destruct (IH (fun n => held (S n))) as [(l & x & N & H)|No]; [left; exists (S l), x; auto|right].
    intros [|l] x N; [exact H0|]. cbn in N. apply (No l x N).
Qed.

(** Emptying the buffers, seen from the whole group. *)
Lemma step_reset_inv u g c ps held rg cl i j k b :
  ginv u g c ps held rg cl i -> nth_error (g_streams g) j = Some (k, b) ->
  exists b2 i2, reset_buffers k (set_world b (g_world g)) = (Ok tt, b2) /\ b_raw b2 = b_raw b
    /\ w_reg (b_w b2) = w_reg (g_world g) /\ w_pid (b_w b2) = w_pid (g_world g) /\ b_rbuf b2 = []
    /\ ginv u (mkGroup (replace j (k, b2) (g_streams g)) (b_w b2)) c ps held rg cl i2.
Proof.
  intros G N.
  destruct (step_reset _ _ _ _ _ _ _ _ _ _ _ G N) as (b2 & o & o2 & i2 & E2 & Eo & Hu & V & R2 & Er & Ew & Hc & Ei & Ek & Hoth & Hu2 & Ha2).
  pose proof (ev_frame _ _ _ _ V) as F. pose proof (ev_raw _ _ _ _ V) as Raw. cbn in F, Raw.
  pose proof (gi_streams _ _ _ _ _ _ _ _ G _ _ _ N) as S0.
  exists b2, i2. split; [exact E2|]. split; [exact Raw|]. split; [apply (fr_reg _ _ _ _ F)|]. split; [apply (fr_pid _ _ _ _ F)|]. split; [exact Er|].
  assert (Mn : forall h, mine (b_w b2) u h = mine (g_world g) u h) by (intros h; apply mine_reg; [apply (fr_reg _ _ _ _ F)|apply (fr_pid _ _ _ _ F)]).
  apply (ginv_ext u _ c (set_at ps j (ps j)) (set_at held j (held j)) (set_at rg j (rg j)) (set_at cl j (cl j)));
    try (intros l; destruct (Nat.eq_dec l j) as [->|]; [now rewrite set_at_same|now rewrite set_at_other]).
  apply (ginv_update u g c ps held rg cl i j k b); auto.
  - rewrite (fr_env _ _ _ _ F). apply (gi_env _ _ _ _ _ _ _ _ G).
  - apply (fr_io _ _ _ _ F).
  - rewrite (pending_reg (g_world g)); [apply (gi_pending _ _ _ _ _ _ _ _ G)|apply (fr_reg _ _ _ _ F)|apply (fr_pid _ _ _ _ F)].
  - apply (sinv_self u (g_world g) i c k b (ps j) (held j) (rg j) (cl j) b2 o i2 c (ps j) (held j) (rg j) (cl j) S0 Eo o2 V); auto.
    + destruct (held j); [exact R2|now rewrite Hc].
    + intros _ _. exact Er.
    + eapply held_reg; eauto.
    + rewrite Mn. apply (si_mine _ _ _ _ _ _ _ _ _ _ S0).
  - intros l k2 b4 Nl Hl. split; [apply (fr_fds _ _ _ _ F); apply (gi_inj _ _ _ _ _ _ _ _ G l j k2 b4 k b); auto|].
    intros Hh. split; [eauto|reflexivity].
  - intros Hj l k2 b4 Nl Hl Hh. destruct (gi_excl _ _ _ _ _ _ _ _ G _ _ _ _ _ _ N Nl ltac:(congruence) Hj Hh). auto.
  - intros Hj Ho. rewrite Hc, Hj. apply (gi_free _ _ _ _ _ _ _ _ G). intros l k2 Hk.
    destruct (Nat.eq_dec l j) as [->|]; eauto.
  - intros X. destruct (gi_kern _ _ _ _ _ _ _ _ G X) as [K1 K2]. rewrite (fr_kern _ _ _ _ F). split; [exact K1|].
    intros Y z Hz. apply (holds_kern (g_world g)); [apply (fr_kern _ _ _ _ F)|apply (fr_pid _ _ _ _ F)|].
    destruct Y as [Hj|(l & Hl & Hk & Hh)]; [apply (K2 j)|apply (K2 l)]; auto.
    intros Y. unfold kind_of in Y. rewrite N in Y. discriminate.
Qed.

(** A request for the whole file by a stream of kind [k]. *)
Definition whole (q : lockreq) (k : bkind) : Prop := q_off q = 0 /\ q_length q = None /\ q_shared q = is_reader k.

(** One turn of a lock call. *)
Lemma step_turn u g c ps held rg cl i j k b q ph t w' :
  ginv u g c ps held rg cl i -> nth_error (g_streams g) j = Some (k, b) -> whole q k ->
  (is_reg ph = true -> rg j = true /\ held j = false) -> (ph = PhRegWait -> settled (g_world g) u) ->
  lock_turn (b_raw b) q ph (g_world g) = (t, w') ->
  (settled (g_world g) u \/ ph = PhReg -> settled w' u)
  /\ let g' := mkGroup (replace j (k, set_world b w') (g_streams g)) w' in
     match t with
     | TDone (Ok _) =>
         held j = false /\ (forall l k2, kind_of g l = Some k2 -> held l = true -> k2 = BReader /\ k = BReader /\ l <> j)
         /\ ginv u g' c ps (set_at held j true) (set_at rg j true) (set_at cl j true) i
     | TDone (Err _) => ginv u g' c ps held (set_at rg j (if is_reg ph then false else rg j)) cl i
     | TWait ph' => (is_reg ph' = true -> held j = false) /\ (is_reg ph = true -> is_reg ph' = true)
         /\ ginv u g' c ps held (set_at rg j (if is_reg ph' then true else rg j)) cl i
     end.
Proof.
  intros G N (Q1 & Q2 & Q3) Hph Hset E.
  pose proof (gi_streams _ _ _ _ _ _ _ _ G _ _ _ N) as S0. pose proof (si_uid _ _ _ _ _ _ _ _ _ _ S0) as U0.
  pose proof (si_mine _ _ _ _ _ _ _ _ _ _ S0) as M0.
  assert (TR : turn_res (b_raw b) q ph (g_world g) t w').
  { apply turn_alone; auto; rewrite U0; auto. intros Hr. now rewrite M0, (proj1 (Hph Hr)), Q3. }
  destruct TR as [L Pe Oth Se C]. rewrite U0 in Pe, Oth, Se, C. rewrite Q3 in C.
  split; [exact Se|].
  set (b3 := set_world b w').
  assert (Fd : forall fd, w_fds w' fd = w_fds (g_world g) fd) by apply (lo_fds _ _ L).
  assert (Ei : w_inodes w' u = Some i) by (rewrite (lo_inodes _ _ L); apply (gi_ino _ _ _ _ _ _ _ _ G)).
  (* what registering means for the others *)
  assert (Ro : unopposed (b_raw b) q (g_world g) -> rg j = false
      /\ forall l k2 b2, nth_error (g_streams g) l = Some (k2, b2) -> rg l = true -> k2 = BReader /\ k = BReader /\ l <> j).
  { unfold unopposed. rewrite U0, Q3. intros Fre.
    assert (Hj : rg j = false).
    { destruct (rg j) eqn:Hj; auto. exfalso. destruct (Fre _ (held_mine _ _ _ _ _ _ _ _ _ _ _ G N Hj)) as [X _].
      apply X. split; [reflexivity|apply whole_share]. }
    split; [exact Hj|]. intros l k2 bl Nl Hh. assert (Hl : l <> j) by (intros ->; congruence).
    destruct (Fre _ (held_mine _ _ _ _ _ _ _ _ _ _ _ G Nl Hh)) as [_ X].
    destruct (is_reader k2) eqn:K2, (is_reader k) eqn:K1.
    1:{ destruct k2, k; try discriminate; auto. }
    all: exfalso; apply X; split; [apply (gi_inj _ _ _ _ _ _ _ _ G l j k2 bl k b); auto|split; [cbn; intros [? ?]; congruence|apply whole_share]]. }
  assert (Si : forall (h' r' cl' : bool), (if h' then c else n_data i) = (if held j then c else n_data i) ->
      (h' = false -> b_rbuf b = [] /\ b_wbuf b = []) -> clean_ok k cl' b -> (h' = true -> r' = true) ->
      mine w' u (fd_of (b_raw b)) = (if r' then [mkLock (fd_of (b_raw b)) (is_reader k) 0 None] else []) ->
      sinv u w' i c k b3 (ps j) h' r' cl').
  { intros h' r' cl' Hcc Hid Hcl Hr Hm. destruct S0 as [(o & R & Hu & Ha & Hrd & Hwr) U1 K1 Id Cl Rg Mi].
    constructor; cbn [b3 set_world b_raw]; auto. exists o. split; [|auto].
    change (set_world b3 w') with (set_world (set_world b (g_world g)) w'). apply rep_locking; [|exact L]. now rewrite Hcc. }
  (* the group after a call that does not touch who holds *)
  assert (Keep : forall r' : bool, w_kern w' = w_kern (g_world g) ->
      mine w' u (fd_of (b_raw b)) = (if r' then [mkLock (fd_of (b_raw b)) (is_reader k) 0 None] else []) ->
      (held j = true -> r' = true) ->
      (r' = true -> forall l k2 b2, nth_error (g_streams g) l = Some (k2, b2) -> l <> j -> rg l = true -> k = BReader /\ k2 = BReader) ->
      ginv u (mkGroup (replace j (k, b3) (g_streams g)) w') c ps held (set_at rg j r') cl i).
  { intros r' Kn Hm Hr Ex.
    apply (ginv_ext u _ c (set_at ps j (ps j)) (set_at held j (held j)) (set_at rg j r') (set_at cl j (cl j)));
      try (intros l; destruct (Nat.eq_dec l j) as [->|]; [now rewrite set_at_same|now rewrite set_at_other]); auto.
    change w' with (b_w b3).
    apply (ginv_update u g c ps held rg cl i j k b); cbn [b3 set_world b_w b_raw]; auto.
    - apply (gi_kind _ _ _ _ _ _ _ _ G).
    - rewrite (lo_env _ _ L). apply (gi_env _ _ _ _ _ _ _ _ G).
    - apply (lo_io _ _ L).
    - rewrite Pe. apply (gi_pending _ _ _ _ _ _ _ _ G).
    - apply Si; auto; [apply (si_idle _ _ _ _ _ _ _ _ _ _ S0)|apply (si_clean _ _ _ _ _ _ _ _ _ _ S0)].
    - intros Hj Ho. apply (gi_free _ _ _ _ _ _ _ _ G). intros l k2 Hk. destruct (Nat.eq_dec l j) as [->|]; eauto.
    - intros X. destruct (gi_kern _ _ _ _ _ _ _ _ G X) as [K1 K2]. rewrite Kn. split; [exact K1|].
      intros Y z Hz. apply (holds_kern (g_world g)); [exact Kn|apply (lo_pid _ _ L)|].
      destruct Y as [Hj|(l & Hl & Hk & Hh)]; [apply (K2 j)|apply (K2 l)]; auto.
      intros Y. unfold kind_of in Y. rewrite N in Y. discriminate. }
  assert (Old : rg j = true -> forall l k2 b2, nth_error (g_streams g) l = Some (k2, b2) -> l <> j -> rg l = true -> k = BReader /\ k2 = BReader).
  { intros Hj l k2 b2 Nl Hl Hh. apply (gi_excl _ _ _ _ _ _ _ _ G j l k b k2 b2); auto. }
  destruct t as [[[]|e]|ph']; cbn zeta.
  - (* the lock is got *)
    destruct C as [Kn C].
    assert (Y : held j = false /\ mine w' u (fd_of (b_raw b)) = [mkLock (fd_of (b_raw b)) (is_reader k) 0 None]
       /\ forall l k2 b2, nth_error (g_streams g) l = Some (k2, b2) -> l <> j -> rg l = true -> k2 = BReader /\ k = BReader).
    { destruct (is_reg ph).
      - destruct (Hph eq_refl) as [H1 H2]. rewrite H1 in M0. split; [exact H2|]. split; [congruence|].
        intros l k2 b2 Nl Hl Hh. destruct (Old H1 l k2 b2 Nl Hl Hh). auto.
      - destruct C as [C1 C2]. destruct (Ro C2) as [H1 H2]. rewrite H1 in M0. rewrite M0 in C1. cbn [app] in C1.
        split; [|split; [exact C1|]].
        + destruct (held j) eqn:Hj; auto. rewrite (held_reg _ _ _ _ _ _ _ _ _ _ _ G N Hj) in H1. discriminate.
        + intros l k2 b2 Nl Hl Hh. destruct (H2 l k2 b2 Nl Hh) as (? & ? & _). auto. }
    destruct Y as (Hj & Mn & Ex).
    assert (Ro2 : forall l k2, kind_of g l = Some k2 -> held l = true -> k2 = BReader /\ k = BReader /\ l <> j).
    { intros l k2 Hk Hh. assert (Hl : l <> j) by congruence. apply kind_nth in Hk. destruct Hk as (bl & Nl).
      destruct (Ex l k2 bl Nl Hl (held_reg _ _ _ _ _ _ _ _ _ _ _ G Nl Hh)). auto. }
    split; [exact Hj|]. split; [exact Ro2|].
    assert (Hd : n_data i = c).
    { destruct (held_dec (g_streams g) held) as [(l & [kl bl] & Nl & Hh)|No].
      - destruct (Ro2 l kl ltac:(apply kind_nth; eauto) Hh) as (-> & _ & _).
        destruct (si_rep _ _ _ _ _ _ _ _ _ _ (gi_streams _ _ _ _ _ _ _ _ G _ _ _ Nl)) as (ol & Rl & _). rewrite Hh in Rl.
        destruct Rl. rewrite rp_c, (rp_nowr eq_refl), write_at_nil. reflexivity.
      - apply (gi_free _ _ _ _ _ _ _ _ G). intros l k2 Hk. apply kind_nth in Hk. destruct Hk as (bl & Nl). apply (No l (k2, bl) Nl). }
    apply (ginv_ext u _ c (set_at ps j (ps j)) (set_at held j true) (set_at rg j true) (set_at cl j true)); auto;
      try (intros l; destruct (Nat.eq_dec l j) as [->|]; [now rewrite set_at_same|now rewrite set_at_other]).
    change w' with (b_w b3).
    destruct (si_idle _ _ _ _ _ _ _ _ _ _ S0 Hj) as [I1 I2].
    apply (ginv_update u g c ps held rg cl i j k b); cbn [b3 set_world b_w b_raw]; auto.
    + apply (gi_kind _ _ _ _ _ _ _ _ G).
    + rewrite (lo_env _ _ L). apply (gi_env _ _ _ _ _ _ _ _ G).
    + apply (lo_io _ _ L).
    + rewrite Pe. apply (gi_pending _ _ _ _ _ _ _ _ G).
    + apply Si; auto; [rewrite Hj; auto|]. intros _ _. exact I1.
    + intros _ l k2 b4 Nl Hl Hh. destruct (Ex l k2 b4 Nl Hl Hh). auto.
    + intros X. destruct (gi_kern _ _ _ _ _ _ _ _ G X) as [K1 K2].
      split; [eapply lawful_set; [exact K1|exact Kn]|]. intros _ z Hz.
      assert (is_reader k = false) as Kr by (pose proof (X j k b N); destruct k; [congruence|reflexivity|reflexivity]). rewrite Kr in Kn.
      apply process_holds_kholds. apply (ksetlk_holds _ _ _ _ _ _ _ Kn). left.
      rewrite (lo_pid _ _ L). split; [reflexivity|]. split; [reflexivity|]. split; [reflexivity|]. split; auto.
  - destruct C as [Kn C]. destruct (is_reg ph) eqn:Hr.
    + destruct (Hph eq_refl) as [H1 H2]. apply Keep; auto; [congruence|discriminate].
    + apply Keep; auto; [congruence|]. apply (held_reg _ _ _ _ _ _ _ _ _ _ _ G N).
  - destruct C as [Kn C]. destruct (is_reg ph) eqn:Hr.
    + destruct (Hph eq_refl) as [H1 H2]. destruct C as [-> C]. split; [auto|]. split; [auto|]. apply Keep; auto; [now rewrite C, M0, H1|intros _; apply (Old H1)].
    + destruct (is_reg ph').
      * destruct C as [C1 C2]. destruct (Ro C2) as [H1 H2]. rewrite H1 in M0. rewrite M0 in C1.
        assert (Hj : held j = false).
        { destruct (held j) eqn:Hj; auto. rewrite (held_reg _ _ _ _ _ _ _ _ _ _ _ G N Hj) in H1. discriminate. }
        split; [auto|]. split; [discriminate|]. apply Keep; auto.
        intros _ l k2 b2 Nl Hl Hh. destruct (H2 l k2 b2 Nl Hh) as (? & ? & _). auto.
      * split; [discriminate|]. split; [discriminate|]. apply Keep; auto; [congruence|]. apply (held_reg _ _ _ _ _ _ _ _ _ _ _ G N).
Qed.

Lemma replace_twice {A} (l : list A) j x y : replace j x (replace j y l) = replace j x l.
Proof. revert j. induction l as [|z l IH]; destruct j; cbn; auto. now rewrite IH. Qed.
Lemma replace_id {A} (l : list A) j x : nth_error l j = Some x -> replace j x l = l.
Proof. revert j. induction l as [|z l IH]; destruct j; cbn; auto; intros H; [congruence|now rewrite IH]. Qed.

(** The first turn of a lock call: the buffers, the arguments, then the turn. *)
Lemma step_begin u g c ps held rg cl i j k b t r q b' :
  ginv u g c ps held rg cl i -> nth_error (g_streams g) j = Some (k, b) ->
  b_lock_begin k t (set_world b (g_world g)) = (r, q, b') ->
  (settled (g_world g) u -> settled (b_w b') u) /\ b_raw b' = b_raw b
  /\ exists i', let g' := mkGroup (replace j (k, b') (g_streams g)) (b_w b') in
     match r with
     | TDone (Ok _) =>
         held j = false /\ (forall l k2, kind_of g l = Some k2 -> held l = true -> k2 = BReader /\ k = BReader /\ l <> j)
         /\ ginv u g' c ps (set_at held j true) (set_at rg j true) (set_at cl j true) i'
     | TDone (Err _) => ginv u g' c ps held rg cl i'
     | TWait ph' => whole q k /\ settled (b_w b') u /\ (is_reg ph' = true -> held j = false)
         /\ ginv u g' c ps held (set_at rg j (if is_reg ph' then true else rg j)) cl i'
     end.
Proof.
  intros G N E. destruct (step_reset_inv _ _ _ _ _ _ _ _ _ _ _ G N) as (b2 & i2 & E2 & Raw & Hreg & Hpid & Er & G2).
  unfold b_lock_begin in E. rewrite E2 in E.
  destruct (lock_begin (b_raw b2) t (b_w b2)) as [[r1 q1] w1] eqn:Eb. injection E as <- <- <-.
  assert (Se : settled (g_world g) u -> settled (b_w b2) u) by (unfold settled; rewrite Hreg, Hpid; auto).
  set (g2 := mkGroup (replace j (k, b2) (g_streams g)) (b_w b2)) in *.
  assert (N2 : nth_error (g_streams g2) j = Some (k, b2)) by (apply (replace_same _ _ _ _ N)).
  pose proof (gi_streams _ _ _ _ _ _ _ _ G2 _ _ _ N2) as S2.
  assert (Kq : f_writable (b_raw b2) = negb (is_reader k)) by (rewrite Raw; apply (si_kind _ _ _ _ _ _ _ _ _ _ (gi_streams _ _ _ _ _ _ _ _ G _ _ _ N))).
  assert (Kg : forall l, kind_of g2 l = kind_of g l) by (intros l; now apply kind_other with (b := b)).
  assert (Err0 : forall e, (TDone (Err e), mkReq None 0 (negb (f_writable (b_raw b2))) (parg_opt t) (w_clock (b_w b2)), b_w b2) = (r1, q1, w1) ->
     (settled (g_world g) u -> settled (b_w (set_world b2 w1)) u) /\ b_raw (set_world b2 w1) = b_raw b
     /\ exists e, r1 = TDone (Err e) /\ exists i', ginv u (mkGroup (replace j (k, set_world b2 w1) (g_streams g)) (b_w (set_world b2 w1))) c ps held rg cl i').
  { intros e [= <- <- <-]. cbn [set_world b_w b_raw]. split; [exact Se|]. split; [exact Raw|]. exists e. split; [reflexivity|]. exists i2.
    replace (set_world b2 (b_w b2)) with b2 by (destruct b2; reflexivity). exact G2. }
  assert (Fin : (settled (g_world g) u -> settled (b_w (set_world b2 w1)) u) /\ b_raw (set_world b2 w1) = b_raw b
     /\ ((exists e, r1 = TDone (Err e)) /\ (exists i', ginv u (mkGroup (replace j (k, set_world b2 w1) (g_streams g)) (b_w (set_world b2 w1))) c ps held rg cl i')
         \/ (lock_turn (b_raw b2) (mkReq None 0 (negb (f_writable (b_raw b2))) (parg_opt t) (w_clock (b_w b2))) PhReg (b_w b2) = (r1, w1)
             /\ q1 = mkReq None 0 (negb (f_writable (b_raw b2))) (parg_opt t) (w_clock (b_w b2))))).
  { unfold lock_begin, check_seekable, check_closed, bind in Eb. destruct (f_closed (b_raw b2)).
    { destruct (Err0 _ Eb) as (A1 & A2 & e & A3 & A4). split; [exact A1|]. split; [exact A2|]. left. eauto. }
    unfold ret in Eb. destruct (f_seekable (b_raw b2)).
    2:{ destruct (Err0 _ Eb) as (A1 & A2 & e & A3 & A4). split; [exact A1|]. split; [exact A2|]. left. eauto. }
    destruct (bad_nonneg t).
    { destruct (Err0 _ Eb) as (A1 & A2 & e & A3 & A4). split; [exact A1|]. split; [exact A2|]. left. eauto. }
    cbn [q_shared] in Eb. destruct (_ || _).
    { destruct (Err0 _ Eb) as (A1 & A2 & e & A3 & A4). split; [exact A1|]. split; [exact A2|]. left. eauto. }
    destruct (lock_turn _ _ _ _) as [t1 w2] eqn:Et. injection Eb as <- <- <-.
    destruct (step_turn u g2 c ps held rg cl i2 j k b2 (mkReq None 0 (negb (f_writable (b_raw b2))) (parg_opt t) (w_clock (b_w b2))) PhReg t1 w2 G2 N2) as [Hs _];
      [split; [reflexivity|split; [reflexivity|cbn [q_shared]; now rewrite Kq, negb_involutive]]|discriminate|discriminate|exact Et|].
    split; [auto|]. split; [exact Raw|]. right. auto. }
  destruct Fin as (Fs & Fr & [((e & ->) & i' & G3)|(Et & ->)]); (split; [exact Fs|]); (split; [exact Fr|]).
  { exists i'. exact G3. }
  set (q := mkReq _ _ _ _ _) in *.
  assert (Wq : whole q k) by (split; [reflexivity|split; [reflexivity|cbn [q_shared q]; now rewrite Kq, negb_involutive]]).
  destruct (step_turn u g2 c ps held rg cl i2 j k b2 q PhReg r1 w1 G2 N2 Wq ltac:(discriminate) ltac:(discriminate) Et) as [Hs T].
  exists i2. cbn [g2 g_streams] in T. rewrite replace_twice in T. cbn [set_world b_w]. cbn zeta in *.
  destruct r1 as [[x|e]|ph'].
  - destruct T as (T1 & T2 & T3). split; [exact T1|]. split; [|exact T3]. intros l k2 Hk. rewrite <- Kg in Hk. auto.
  - cbn [is_reg] in T. apply (ginv_ext _ _ _ _ _ _ _ _ ps held rg cl) in T; auto.
    intros l. destruct (Nat.eq_dec l j) as [->|]; [now rewrite set_at_same|now rewrite set_at_other].
  - destruct T as (T1 & _ & T3). split; [exact Wq|]. split; [auto|]. split; [exact T1|exact T3].
Qed.

(** The whole call, when it does not wait. *)
Lemma lock_begin_loop f t w : w_env w = [] -> raw_lock_file f t PNone PNone 0 SNone w
  = match lock_begin f t w with
    | (TDone (Ok _), _, w') => (Ok (None, 0), w')
    | (TDone (Err e), _, w') => (Err e, w')
    | (TWait _, _, w') => (Err EHang, w')
    end.
Proof.
  intros He. unfold raw_lock_file, lock_begin, bind. destruct (check_seekable f w) as [[x|e] w1] eqn:Ec; [|reflexivity].
  assert (w1 = w) as ->.
  { unfold check_seekable, check_closed, bind, ret, raise in Ec. destruct (f_closed f); [discriminate|].
    destruct (f_seekable f); congruence. }
  destruct (bad_nonneg t); [reflexivity|]. cbn [bad_nonneg seek_value Z.eqb orb negb q_shared].
  destruct (_ || _); [reflexivity|]. unfold abs_offset. cbn [Z.eqb]. unfold ret. rewrite He, loop_turn. cbn [parg_opt].
  destruct (lock_turn _ _ _ _) as [[[]|] w2]; reflexivity.
Qed.
Lemma step_lock u g c ps held cl i j k b t r b' :
  ginv u g c ps held held cl i -> nth_error (g_streams g) j = Some (k, b) ->
  b_lock_file k t PNone PNone 0 SNone (set_world b (g_world g)) = (r, b') -> r <> Err EHang ->
  b_raw b' = b_raw b /\ exists i',
   ((exists e, r = Err e) /\ ginv u (mkGroup (replace j (k, b') (g_streams g)) (b_w b')) c ps held held cl i')
   \/ ((exists x, r = Ok x)
       /\ (forall l k2, kind_of g l = Some k2 -> held l = true -> k2 = BReader /\ k = BReader /\ l <> j)
       /\ ginv u (mkGroup (replace j (k, b') (g_streams g)) (b_w b')) c ps (set_at held j true) (set_at held j true) (set_at cl j true) i').
Proof.
  intros G N E Hr. destruct (b_lock_begin k t (set_world b (g_world g))) as [[r1 q1] b1] eqn:Eb.
  destruct (step_begin _ _ _ _ _ _ _ _ _ _ _ _ _ _ _ G N Eb) as (_ & Rw & i' & T). cbn zeta in T.
  destruct (step_reset_inv _ _ _ _ _ _ _ _ _ _ _ G N) as (b2 & i2 & E2 & Raw & _ & _ & _ & G2).
  unfold b_lock_file, bind in E. unfold b_lock_begin in Eb. rewrite E2 in E, Eb. unfold on_raw in E.
  rewrite lock_begin_loop in E by apply (gi_env _ _ _ _ _ _ _ _ G2).
  destruct (lock_begin (b_raw b2) t (b_w b2)) as [[r2 q2] w2]. injection Eb as -> -> <-. cbn [set_world b_raw] in Rw.
  destruct r1 as [[x|e]|ph]; injection E as <- <-; (split; [exact Rw|]); exists i'.
  - right. destruct T as (_ & T1 & T2). split; [eauto|]. split; [exact T1|exact T2].
  - left. split; [eauto|exact T].
  - congruence.
Qed.

(** unlock_file() by the holder. *)
Lemma step_unlock u g c ps held rg cl i j k b :
  ginv u g c ps held rg cl i -> nth_error (g_streams g) j = Some (k, b) -> held j = true ->
  exists b' i', b_unlock_file k PNone PNone 0 (set_world b (g_world g)) = (Ok tt, b')
   /\ ginv u (mkGroup (replace j (k, b') (g_streams g)) (b_w b')) c ps (set_at held j false) (set_at rg j false) cl i'
   /\ settled (b_w b') u /\ b_raw b' = b_raw b.
Proof.
  intros G N Hj.
  destruct (step_reset _ _ _ _ _ _ _ _ _ _ _ G N) as (b2 & o & o2 & i2 & E2 & Eo & Hu & V & R2 & Er & Ew & Hc & Ei & Ek & Hoth & Hu2 & Ha2).
  rewrite Hj in *. pose proof (ev_frame _ _ _ _ V) as F. pose proof (ev_raw _ _ _ _ V) as Raw. cbn in F, Raw.
  pose proof (gi_streams _ _ _ _ _ _ _ _ G _ _ _ N) as S0.
  assert (Tb : forall v, table (b_w b2) v = table (g_world g) v).
  { intros v. unfold table, registry_of. now rewrite (fr_reg _ _ _ _ F), (fr_pid _ _ _ _ F). }
  assert (Pe : pending (b_w b2) u = []).
  { rewrite (pending_reg (g_world g)); [apply (gi_pending _ _ _ _ _ _ _ _ G)|apply (fr_reg _ _ _ _ F)|apply (fr_pid _ _ _ _ F)]. }
  pose proof (si_mine _ _ _ _ _ _ _ _ _ _ S0) as M0. rewrite (held_reg _ _ _ _ _ _ _ _ _ _ _ G N Hj) in M0. unfold mine in M0. rewrite <- Tb in M0.
  destruct (delete_mine _ _ _ M0) as (l' & Ed & Em & Eo').
  pose proof (rp_live _ _ _ _ _ _ R2) as L2. pose proof (si_uid _ _ _ _ _ _ _ _ _ _ S0) as U0.
  destruct (unlock_alone (b_raw b2) (b_w b2) o2) with (l' := l') as (w3 & E3 & L & Tn & Pn & Kn & Se).
  { apply L2. } { apply L2. } { apply L2. } { now rewrite Raw, U0. } { rewrite Raw, U0, Ei. discriminate. }
  { intros e X. apply (gi_io _ _ _ _ _ _ _ _ G e), (fr_io _ _ _ _ F), X. } { now rewrite Raw, U0. } { now rewrite Raw, U0. }
  rewrite Raw, U0 in Tn, Pn, Kn, Se.
  exists (set_world b2 w3), i2. split; [unfold b_unlock_file, bind; rewrite E2; unfold on_raw; rewrite E3; reflexivity|].
  split; [|split; [exact Se|exact Raw]].
  set (b3 := set_world b2 w3).
  assert (R3 : rep k b3 o2 i2 c (ps j)) by (apply rep_locking; auto).
  apply (ginv_ext u _ c (set_at ps j (ps j)) (set_at held j false) (set_at rg j false) (set_at cl j (cl j))); auto;
      try (intros l; destruct (Nat.eq_dec l j) as [->|]; [now rewrite set_at_same|now rewrite set_at_other]).
  change w3 with (b_w b3).
  apply (ginv_update u g c ps held rg cl i j k b); cbn [b3 set_world b_w b_raw]; auto.
  - rewrite (lo_inodes _ _ L). exact Ei.
  - rewrite (lo_env _ _ L), (fr_env _ _ _ _ F). apply (gi_env _ _ _ _ _ _ _ _ G).
  - eapply incl_tran; [apply (lo_io _ _ L)|apply (fr_io _ _ _ _ F)].
  - assert (Hwr : exists o1, o1 = o /\ (f_readable (b_raw b) = true -> o_rd o1 = true) /\ (f_writable (b_raw b) = true -> o_wr o1 = true)).
    { destruct (si_rep _ _ _ _ _ _ _ _ _ _ S0) as (o1 & R1 & X1 & X2 & X3 & X4). exists o1. split; [|auto].
      pose proof (lv_fd _ _ _ _ (rp_live _ _ _ _ _ _ R1)) as Y. cbn in Y. congruence. }
    destruct Hwr as (o1 & -> & Hrd & Hwr). pose proof (ev_o _ _ _ _ V) as So.
    constructor; cbn [b3 set_world b_raw]; rewrite ?Raw; auto; try discriminate.
    + exists o2. split; [rewrite Hc; exact R3|]. rewrite (so_rd _ _ So), (so_wr _ _ So). auto.
    + apply (si_kind _ _ _ _ _ _ _ _ _ _ S0).
    + intros _ _. exact Er.
    + unfold mine. now rewrite Tn.
  - intros h Hh. unfold mine. rewrite Tn, <- Tb. apply Eo'. exact Hh.
  - intros l k2 b4 Nl Hl.
    assert (Hfd : fd_of (b_raw b4) <> fd_of (b_raw b)) by (apply (gi_inj _ _ _ _ _ _ _ _ G l j k2 b4 k b); auto).
    split; [rewrite (lo_fds _ _ L); apply (fr_fds _ _ _ _ F); auto|]. intros Hh; split; [eauto|reflexivity].
  - discriminate.
  - intros X. destruct (gi_kern _ _ _ _ _ _ _ _ G X) as [K1 K2]. rewrite Kn, (fr_kern _ _ _ _ F), (fr_pid _ _ _ _ F).
    split; [now apply lawful_unlock|]. intros [Y|(l & Hl & Hk & Hh)]; [discriminate|].
    exfalso. destruct (kind_of g l) as [k2|] eqn:Kl; [|congruence]. apply kind_nth in Kl. destruct Kl as (bl & Nl).
    destruct (held_excl _ _ _ _ _ _ _ _ _ _ _ _ _ _ G N Nl ltac:(congruence) Hj Hh) as [-> _]. apply (X j BReader b N). reflexivity.
Qed.

(** Other processes. *)
Lemma step_other u g c ps held rg cl i K :
  ginv u g c ps held rg cl i -> lawful K ->
  filter (fun s => k_pid s =? w_pid (g_world g)) K = filter (fun s => k_pid s =? w_pid (g_world g)) (w_kern (g_world g)) ->
  ginv u (mkGroup (g_streams g) (set_kern (g_world g) K)) c ps held rg cl i.
Proof.
  intros G La E. destruct G. constructor; cbn [g_world g_streams]; auto.
  - intros j k b N. apply (sinv_world u (g_world g) i c k b _ _ _ _ _ i c); auto.
  - intros X. destruct (gi_kern0 X) as [_ K2]. split; [exact La|]. intros j Hk Hh z Hz.
    specialize (K2 j Hk Hh z Hz). apply process_holds_kholds in K2. apply process_holds_kholds. cbn [w_kern w_pid set_kern].
    apply kholds_own. rewrite E. apply (proj1 (kholds_own _ _ _ _ _)). exact K2.
Qed.

Lemma step_data u g c ps held rg cl i d :
  ginv u g c ps held rg cl i -> unread_only g -> other_excludes (w_kern (g_world g)) (w_pid (g_world g)) u ->
  (forall l k, kind_of g l = Some k -> held l = false)
  /\ ginv u (mkGroup (g_streams g) (upd_ino (g_world g) u (mkIno KReg d true))) d ps held rg cl (mkIno KReg d true).
Proof.
  intros G X (p & Hp & Hb).
  assert (No : forall l k, kind_of g l = Some k -> held l = false).
  { intros l k Hk. destruct (held l) eqn:Hh; auto. exfalso. destruct (gi_kern _ _ _ _ _ _ _ _ G X) as [K1 K2].
    destruct (K2 l ltac:(congruence) Hh 0 ltac:(lia)) as (s1 & I1 & P1 & U1 & S1 & B1).
    destruct (Hb 0 ltac:(lia)) as (s2 & I2 & P2 & U2 & S2 & B2).
    destruct (K1 s1 s2 0); auto; congruence. }
  split; [exact No|]. destruct G. constructor; cbn [g_world g_streams]; auto.
  - cbn. apply upd_same, P_Raw.uid_eqb_refl.
  - intros j k b N. assert (Hh : held j = false) by (apply (No j k); apply kind_nth; eauto).
    apply (sinv_world u (g_world g) i c k b _ _ _ _ _ _ d); auto.
    + cbn. apply upd_same, P_Raw.uid_eqb_refl.
    + rewrite Hh. discriminate.
Qed.
