(** C36 (write_to_file / read_from_file), C37 (append_to_file), C38 (their sync argument). *)
From Coq Require Import ZArith Ascii String List Bool Lia.
From Verif Require Import M_Base M_Modes M_Registry M_Kernel M_World M_Raw M_Open M_Buffered M_Files C_Buffered
  S_Bytes S_Raw S_Locks S_LockFile S_Open S_Buffered S_Sync S_Files S_Demo
  P_Bytes P_Raw P_Close P_Frame P_LockFile P_Lock C_Lock P_Open P_Buffered P_BufOps P_BufRun P_LockEnv P_Files C_Sync.
Import ListNotations.
Open Scope Z_scope.

Lemma with_open_cases {A} py_u a (body : layer -> B A) w r w' : with_open py_u a body w = (r, w') ->
  (exists e, rsopen py_u a w = (Err e, w') /\ r = Err e)
  \/ exists s w1 b', rsopen py_u a w = (Ok s, w1)
       /\ finally (body (st_layer s)) (s_close (st_layer s)) (fresh (st_raw s) (st_bufsize s) w1) = (r, b') /\ w' = b_w b'.
Proof.
  unfold with_open, bind. destruct (rsopen py_u a w) as [[s|e] w1]; [|intros [= <- <-]; left; eauto].
  destruct (finally _ _ _) as [r1 b1] eqn:E. intros [= <- <-]. right. eauto 6.
Qed.

(** The content found, when others did [past] during the wait for the lock. *)
Lemma ready_content rk a ek p w s w' fd o i i1 i2 w0 w1 : ready rk a ek p w s w' fd o i i1 i2 w0 w1 ->
  exists past, w_env w = past ++ w_env w' /\ (a_locking a = false -> past = [])
    /\ had_content w p (n_data i) /\ n_data i1 = content_after past (n_data i)
    /\ (a_locking a = true -> ~ kept_out (f_writable (st_raw s)) (w_pid w) (o_uid o) (locks_after past (w_kern w))).
Proof.
  intros R. pose proof (rd_open _ _ _ _ _ _ _ _ _ _ _ _ _ _ R) as Op.
  assert (H : had_content w p (n_data i)).
  { destruct (op_how _ _ _ _ _ _ _ Op) as [(A & B & _)|(A & _ & _ & ->)]; [|right; auto].
    left. exists (o_uid o), i. repeat split; auto.
    pose proof (lv_kind _ _ _ _ (rd_live1 _ _ _ _ _ _ _ _ _ _ _ _ _ _ R)) as K.
    pose proof (rd_others _ _ _ _ _ _ _ _ _ _ _ _ _ _ R) as K2. apply others_only_kind in K2. congruence. }
  rewrite (fr_env _ _ _ _ (rd_frame _ _ _ _ _ _ _ _ _ _ _ _ _ _ R)).
  pose proof (rd_lock _ _ _ _ _ _ _ _ _ _ _ _ _ _ R) as E. pose proof (rd_nolock _ _ _ _ _ _ _ _ _ _ _ _ _ _ R) as Nl.
  destruct (a_locking a).
  - pose proof (lock_file_locks _ _ _ _ _ _ _ _ _ E) as (past' & E3 & E4 & E5).
    pose proof E as E6. rewrite C21_lock_file_default_share in E6. apply C21_lock_file_obtains in E6. destruct E6 as (_ & _ & _ & E6).
    apply ob_free in E6.
    apply lock_file_events in E. destruct E as (past & E1 & E2). exists past.
    assert (past' = past) as -> by (rewrite E1 in E3; now apply app_inv_tail in E3).
    rewrite (op_env _ _ _ _ _ _ _ Op) in E1. split; [exact E1|]. split; [discriminate|]. split; [exact H|].
    specialize (E2 (o_uid o)). rewrite (rd_i1 _ _ _ _ _ _ _ _ _ _ _ _ _ _ R), (op_ino _ _ _ _ _ _ _ Op) in E2.
    assert (uid_of (st_raw s) = o_uid o) as X by (rewrite (rd_raw _ _ _ _ _ _ _ _ _ _ _ _ _ _ R); reflexivity).
    rewrite X, P_Raw.uid_eqb_refl in E2. injection E2 as ->. split; [apply after_events_data|].
    intros _ (g & b & G1 & G2 & G3 & G4 & G5 & G6). apply E6. rewrite (op_kern _ _ _ _ _ _ _ Op), (op_pid _ _ _ _ _ _ _ Op) in *.
    exists g, b. split; [auto|]. split; [congruence|]. split; [congruence|]. split; [|split; [exact G6|unfold covers; lia]].
    intros [Y1 Y2]. destruct (f_writable (st_raw s)); [discriminate|]. rewrite (G4 eq_refl) in Y1. discriminate.
  - subst w1. exists []. rewrite (op_env _ _ _ _ _ _ _ Op). rewrite (Nl eq_refl). repeat split; auto. discriminate.
Qed.

Lemma ready_name rk a ek p w s w' fd o i i1 i2 w0 w1 : ready rk a ek p w s w' fd o i i1 i2 w0 w1 -> w_names w' p = Some (o_uid o).
Proof.
  intros R. rewrite (fr_names _ _ _ _ (rd_frame _ _ _ _ _ _ _ _ _ _ _ _ _ _ R)).
  rewrite <- (op_name _ _ _ _ _ _ _ (rd_open _ _ _ _ _ _ _ _ _ _ _ _ _ _ R)).
  pose proof (rd_lock _ _ _ _ _ _ _ _ _ _ _ _ _ _ R) as E. destruct (a_locking a); [|now subst].
  apply lock_file_env in E. destruct E as (E & _). first [now rewrite E | tauto].
Qed.

Lemma ready_io rk a ek p w s w' fd o i i1 i2 w0 w1 : ready rk a ek p w s w' fd o i i1 i2 w0 w1 -> incl (w_io w') (w_io w).
Proof.
  intros R. eapply incl_tran; [apply (fr_io _ _ _ _ (rd_frame _ _ _ _ _ _ _ _ _ _ _ _ _ _ R))|].
  assert (incl (w_io w0) (w_io w)) as I0.
  { rewrite (op_io _ _ _ _ _ _ _ (rd_open _ _ _ _ _ _ _ _ _ _ _ _ _ _ R)). apply incl_tl_refl. }
  pose proof (rd_lock _ _ _ _ _ _ _ _ _ _ _ _ _ _ R) as E. destruct (a_locking a); [|now subst].
  apply lock_file_env in E. destruct E as (_ & _ & _ & E & _). eapply incl_tran; eauto.
Qed.

Lemma ready_fresh rk a ek p w s w' fd o i i1 i2 w0 w1 : ready rk a ek p w s w' fd o i i1 i2 w0 w1 ->
  f_readable (st_raw s) = rk_read rk /\ f_writable (st_raw s) = (rk_write rk || rk_append rk) /\ fd_of (st_raw s) = fd.
Proof. intros R. rewrite (rd_raw _ _ _ _ _ _ _ _ _ _ _ _ _ _ R). auto. Qed.

(** What write_body does to the stream opened. *)
Lemma body_after_open h sync d rk a ek p w s w' fd o i i1 i2 w0 w1 r b' :
  ready rk a ek p w s w' fd o i i1 i2 w0 w1 -> rk_read rk = false -> rk_write rk || rk_append rk = true -> at_end o i2 ->
  finally (write_body h sync d (st_layer s)) (s_close (st_layer s)) (fresh (st_raw s) (st_bufsize s) w') = (r, b') ->
  exists i' x y, d = x ++ y /\ w_names (b_w b') p = Some (o_uid o) /\ w_inodes (b_w b') (o_uid o) = Some i'
    /\ w_env (b_w b') = w_env w' /\ n_kind i' = KReg /\ n_data i' = n_data i2 ++ x
    /\ (r = Ok tt -> (a_buffering a <> Some 0 -> y = []) /\ (sync = true -> n_dirty i' = false)).
Proof.
  intros R Rr Rw At Hb. destruct (ready_fresh _ _ _ _ _ _ _ _ _ _ _ _ _ _ R) as (Rd & Wr & Fd). rewrite Rw in Wr.
  pose proof (rd_live _ _ _ _ _ _ _ _ _ _ _ _ _ _ R) as L.
  assert (Ly : (st_layer s = LRaw \/ st_layer s = LWriter /\ 0 <= st_bufsize s) /\ (a_buffering a <> Some 0 -> st_layer s = LWriter)).
  { destruct (rd_layer _ _ _ _ _ _ _ _ _ _ _ _ _ _ R) as [(-> & X & _)|(X & _ & Y)]; [split; [auto|congruence]|].
    rewrite Rr, Rw in Y. cbn in Y. split; [right; split; auto; lia|auto]. }
  destruct Ly as [Ly Ly2].
  destruct (write_body_end _ _ _ _ _ _ _ _ _ _ _ L At Wr Ly Hb) as (i' & x & y & Hd & Hk & Hi & Hc & (N & Ne & _) & Hr).
  exists i', x, y. split; [exact Hd|]. rewrite N. split; [eapply ready_name; eauto|]. split; [exact Hi|]. split; [exact Ne|].
  split; [exact Hk|]. split; [exact Hc|]. intros X; destruct (Hr X); auto.
Qed.

(** * C37 *)

(** append_to_file, whatever happens: the previous content is followed by a
    beginning of the data; by all of it when the call returns. *)
Lemma append_moment : forall py_u has_fdatasync a p d sync must_not_create w r w',
  fa_name a = NPath p -> not_pipe w p ->
  append_to_file py_u has_fdatasync a d sync must_not_create w = (r, w') ->
  (exists e, r = Err e /\ rsopen py_u (open_args a (append_mode must_not_create)) w = (Err e, w'))
  \/ exists past c x y, w_env w = past ++ w_env w' /\ (fa_locking a = false -> past = [])
       /\ had_content w p c /\ d = x ++ y /\ has_content w' p (content_after past c ++ x)
       /\ (must_not_create = true -> w_names w p <> None)
       /\ (r = Ok tt -> fa_buffering a <> Some 0 -> y = [])
       /\ (r = Ok tt -> sync = true -> exists u, w_names w' p = Some u /\ durable w' u (content_after past c ++ x))
       /\ (fa_locking a = true -> forall u, w_names w p = Some u -> ~ kept_out true (w_pid w) u (locks_after past (w_kern w))).
Proof.
  intros py_u h a p d sync mn w r w' Hn Np H. unfold append_to_file in H.
  destruct (with_open_cases _ _ _ _ _ _ H) as [(e & X & ->)|(s & w1 & b' & Ho & Hb & ->)]; [left; eauto|right].
  pose proof (append_prelude py_u a p mn Hn) as Ep. destruct (has_text_args a).
  { exfalso. unfold rsopen in Ho. unfold prelude_of in Ep. rewrite Ep in Ho. discriminate. }
  set (rk := mkRaw _ _ _ _ _ _ _ _ _ _ _) in *. set (ek := mkExt _ _ _) in *.
  destruct (rsopen_ready py_u (open_args a (append_mode mn)) p w s w1 rk ek) as (fd & o & i & i1 & i2 & w0 & wl & R); auto.
  { repeat split; auto. }
  pose proof (rd_open _ _ _ _ _ _ _ _ _ _ _ _ _ _ R) as Op.
  assert (At : at_end o i2).
  { unfold at_end, write_pos. rewrite (op_app _ _ _ _ _ _ _ Op). reflexivity. }
  pose proof (rd_dirty _ _ _ _ _ _ _ _ _ _ _ _ _ _ R eq_refl) as ->.
  destruct (body_after_open _ _ _ _ _ _ _ _ _ _ _ _ _ _ _ _ _ _ _ R eq_refl eq_refl At Hb) as (i' & x & y & Hd & N & I & Ev & K & C & F).
  destruct (ready_content _ _ _ _ _ _ _ _ _ _ _ _ _ _ R) as (past & P1 & P2 & P3 & P4 & P5). rewrite P4 in C.
  exists past, (n_data i), x, y. rewrite Ev. split; [exact P1|]. split; [exact P2|]. split; [exact P3|]. split; [exact Hd|].
  split; [exists (o_uid o), i'; auto|].
  split; [|split; [intros X Y; now apply F|split]].
  - intros ->. destruct (op_how _ _ _ _ _ _ _ Op) as [(A & _)|(_ & A & _)]; [congruence|discriminate].
  - intros X Y. exists (o_uid o). split; [exact N|]. rewrite <- C. apply durable_clean; [exact I|]. now apply F.
  - intros X u Y. destruct (op_how _ _ _ _ _ _ _ Op) as [(A & _)|(A & _)]; [|congruence]. rewrite A in Y. injection Y as <-. rewrite (proj1 (proj2 (ready_fresh _ _ _ _ _ _ _ _ _ _ _ _ _ _ R))) in P5. exact (P5 X).
Qed.
Theorem C37_append : forall py_u has_fdatasync a p d sync must_not_create w r w',
  fa_name a = NPath p -> not_pipe w p ->
  append_to_file py_u has_fdatasync a d sync must_not_create w = (r, w') ->
  (exists e, r = Err e /\ rsopen py_u (open_args a (append_mode must_not_create)) w = (Err e, w'))
  \/ exists past c x y, w_env w = past ++ w_env w' /\ (fa_locking a = false -> past = [])
       /\ had_content w p c /\ d = x ++ y /\ has_content w' p (content_after past c ++ x)
       /\ (must_not_create = true -> w_names w p <> None)
       /\ (r = Ok tt -> fa_buffering a <> Some 0 -> y = [])
       /\ (r = Ok tt -> sync = true -> exists u, w_names w' p = Some u /\ durable w' u (content_after past c ++ x)).
Proof.
  intros py_u h a p d sync mn w r w' Hn Np H.
  destruct (append_moment _ _ _ _ _ _ _ _ _ _ Hn Np H) as [X|(past & c & x & y & A1 & A2 & A3 & A4 & A5 & A6 & A7 & A8 & _)]; [now left|right].
  exists past, c, x, y. auto 10.
Qed.

Lemma content_after_none evs : (forall ev, In ev evs -> ev_data ev = None) -> forall c, content_after evs c = c.
Proof.
  induction evs as [|ev evs IH]; intros H c; [reflexivity|]. cbn. rewrite (H ev) by now left. apply IH. intros e He. apply H. now right.
Qed.
Lemma past_none a w past rest c : w_env w = past ++ rest -> (fa_locking a = false -> past = []) ->
  fa_locking a = false \/ no_writer w -> content_after past c = c.
Proof.
  intros E P [X|X]; [now rewrite (P X)|]. apply content_after_none. intros ev Hev. apply X. rewrite E. apply in_or_app. now left.
Qed.

(** The same for a call that returns, nothing else writing meanwhile. *)
Theorem C37_append_concatenates_partial : forall py_u has_fdatasync a p d sync must_not_create w w',
  fa_name a = NPath p -> not_pipe w p -> fa_buffering a <> Some 0 -> fa_locking a = false \/ no_writer w ->
  append_to_file py_u has_fdatasync a d sync must_not_create w = (Ok tt, w') ->
  exists c, had_content w p c /\ has_content w' p (c ++ d).
Proof.
  intros py_u h a p d sync mn w w' Hn Np Hb Hl H.
  destruct (C37_append _ _ _ _ _ _ _ _ _ _ Hn Np H) as [(e & X & _)|(past & c & x & y & A1 & A2 & A3 & -> & A4 & _ & C & _)]; [discriminate|].
  rewrite (C eq_refl Hb), app_nil_r in *. exists c. rewrite (past_none _ _ _ _ c A1 A2 Hl) in A4. auto.
Qed.

(** While others append: what those who came before appended, and ours. *)
Lemma others_append_after evs : forall c ds rest, others_append c (evs ++ rest) ds ->
  exists n, content_after evs c = c ++ concat (firstn n ds).
Proof.
  induction evs as [|ev evs IH]; intros c ds rest H; [exists O; cbn; now rewrite app_nil_r|].
  cbn [app others_append] in H.
  change (content_after (ev :: evs) c) with (content_after evs (match ev_data ev with Some d => d | None => c end)). destruct (ev_data ev) as [c'|].
  - destruct H as (d & ds' & -> & -> & H). destruct (IH _ _ _ H) as (n & E). exists (S n). cbn [firstn concat]. rewrite E, <- app_assoc. reflexivity.
  - eapply IH; eauto.
Qed.
Theorem C37_append_among_others_partial : forall py_u has_fdatasync a p d sync must_not_create w w' c ds,
  fa_name a = NPath p -> not_pipe w p -> fa_buffering a <> Some 0 ->
  had_content w p c -> others_append c (w_env w) ds ->
  append_to_file py_u has_fdatasync a d sync must_not_create w = (Ok tt, w') ->
  exists n, has_content w' p (c ++ concat (firstn n ds) ++ d).
Proof.
  intros py_u h a p d sync mn w w' c ds Hn Np Hb Hc Ho H.
  destruct (C37_append _ _ _ _ _ _ _ _ _ _ Hn Np H) as [(e & X & _)|(past & c1 & x & y & A1 & A2 & A3 & -> & A4 & _ & C & _)]; [discriminate|].
  rewrite (C eq_refl Hb), app_nil_r in *.
  assert (c1 = c) as ->.
  { destruct A3 as [(u & i & B1 & B2 & _ & <-)|[B1 ->]], Hc as [(u' & i' & D1 & D2 & _ & <-)|[D1 ->]]; congruence. }
  rewrite A1 in Ho. destruct (others_append_after _ _ _ _ Ho) as (n & E). exists n. rewrite E, <- app_assoc in A4. exact A4.
Qed.

(** Calls made one after the other, by one process or by several: the content each finds is the one the
    previous left. *)
Record append_call : Type := mkCall {
  ac_py_u : bool; ac_fdatasync : bool; ac_args : fileargs; ac_data : list Z; ac_sync : bool; ac_must_exist : bool;
  ac_before : world; ac_after : world }.
Fixpoint in_turn (p : list ascii) (c : list Z) (calls : list append_call) (c' : list Z) : Prop :=
  match calls with
  | [] => c' = c
  | k :: calls =>
      fa_name (ac_args k) = NPath p /\ fa_buffering (ac_args k) <> Some 0
      /\ had_content (ac_before k) p c /\ no_writer (ac_before k)
      /\ append_to_file (ac_py_u k) (ac_fdatasync k) (ac_args k) (ac_data k) (ac_sync k) (ac_must_exist k) (ac_before k)
         = (Ok tt, ac_after k)
      /\ exists c1, has_content (ac_after k) p c1 /\ in_turn p c1 calls c'
  end.
Lemma had_content_fun w p a b : had_content w p a -> had_content w p b -> a = b.
Proof.
  intros [(u & i & B1 & B2 & _ & <-)|[B1 ->]] [(u' & i' & D1 & D2 & _ & <-)|[D1 ->]]; congruence.
Qed.
Theorem C37_appends_concatenate_partial : forall p calls c c', in_turn p c calls c' -> c' = c ++ concat (map ac_data calls).
Proof.
  induction calls as [|k calls IH]; intros c c' H; cbn in *; [now rewrite app_nil_r|].
  destruct H as (H1 & H2 & H3 & H4 & H5 & c1 & H6 & H7).
  assert (Np : not_pipe (ac_before k) p).
  { intros u i E1 E2. destruct H3 as [(u' & i' & B1 & B2 & B3 & _)|[B1 _]]; [|congruence].
    rewrite B1 in E1. injection E1 as <-. rewrite B2 in E2. injection E2 as <-. congruence. }
  destruct (C37_append_concatenates_partial _ _ _ _ _ _ _ _ _ H1 Np H2 (or_intror H4) H5) as (c0 & A & B).
  rewrite <- (had_content_fun _ _ _ _ H3 A) in B.
  rewrite (had_content_fun _ _ _ _ (or_introl H6) (or_introl B)) in H7. rewrite (IH _ _ H7), app_assoc. reflexivity.
Qed.

(** * C36 *)

(** write_to_file, once the file is open, locked and erased. *)
Theorem C36_write : forall py_u has_fdatasync a p d sync must_create must_not_create w r w',
  fa_name a = NPath p -> not_pipe w p ->
  (must_create = true -> fa_locking a = true -> no_writer w) ->
  write_to_file py_u has_fdatasync a d sync must_create must_not_create w = (r, w') ->
  (exists e, r = Err e /\ rsopen py_u (open_args a (write_mode must_create must_not_create)) w = (Err e, w'))
  \/ exists x y, d = x ++ y /\ has_content w' p x
       /\ (must_create = true -> w_names w p = None)
       /\ (must_not_create = true -> w_names w p <> None)
       /\ (r = Ok tt -> fa_buffering a <> Some 0 -> y = [])
       /\ (r = Ok tt -> sync = true -> exists u, w_names w' p = Some u /\ durable w' u x).
Proof.
  intros py_u h a p d sync mc mn w r w' Hn Np Hmc H. unfold write_to_file in H.
  destruct (with_open_cases _ _ _ _ _ _ H) as [(e & X & ->)|(s & w1 & b' & Ho & Hb & ->)]; [left; eauto|right].
  pose proof (write_prelude py_u a p mc mn Hn) as Ep. destruct (has_text_args a).
  { exfalso. unfold rsopen in Ho. unfold prelude_of in Ep. rewrite Ep in Ho. discriminate. }
  set (rk := mkRaw _ _ _ _ _ _ _ _ _ _ _) in *. set (ek := mkExt _ _ _) in *.
  destruct (rsopen_ready py_u (open_args a (write_mode mc mn)) p w s w1 rk ek) as (fd & o & i & i1 & i2 & w0 & wl & R); auto.
  { repeat split; auto. }
  pose proof (rd_open _ _ _ _ _ _ _ _ _ _ _ _ _ _ R) as Op.
  assert (mc && mn = false) as Hmm.
  { pose proof (rd_checks _ _ _ _ _ _ _ _ _ _ _ _ _ _ R) as Hck. unfold rk in Hck. destruct mc, mn; auto. destruct p; discriminate Hck. }
  assert (D : n_data i2 = []).
  { rewrite (rd_data _ _ _ _ _ _ _ _ _ _ _ _ _ _ R). destruct mc; [|reflexivity]. cbn [ek ek_truncate negb].
    destruct (op_how _ _ _ _ _ _ _ Op) as [(_ & _ & X & _)|(A & _ & _ & Hi)].
    { exfalso. apply X. cbn. auto. }
    destruct (rd_others _ _ _ _ _ _ _ _ _ _ _ _ _ _ R) as [-> |(ev & dd & I1 & I2 & E)]; [now rewrite Hi|].
    destruct (fa_locking a) eqn:El.
    - rewrite (Hmc eq_refl eq_refl _ I1) in I2. discriminate.
    - rewrite (rd_nolock _ _ _ _ _ _ _ _ _ _ _ _ _ _ R El). now rewrite Hi. }
  assert (At : at_end o i2).
  { unfold at_end, write_pos. rewrite (op_app _ _ _ _ _ _ _ Op), (op_pos _ _ _ _ _ _ _ Op), D. reflexivity. }
  destruct (body_after_open _ _ _ _ _ _ _ _ _ _ _ _ _ _ _ _ _ _ _ R eq_refl eq_refl At Hb) as (i' & x & y & Hd & N & I & Ev & K & C & F).
  rewrite D in C. cbn [app] in C. subst x.
  exists (n_data i'), y. split; [exact Hd|]. split; [exists (o_uid o), i'; auto|].
  split; [|split; [|split; [intros X Y; now apply F|]]].
  - intros ->. destruct (op_how _ _ _ _ _ _ _ Op) as [(_ & _ & X & _)|(A & _)]; [|exact A]. exfalso. apply X. cbn. auto.
  - intros ->. destruct (op_how _ _ _ _ _ _ _ Op) as [(A & _)|(_ & A & _)]; [congruence|discriminate].
  - intros X Y. exists (o_uid o). split; [exact N|]. apply durable_clean; [exact I|]. now apply F.
Qed.

Lemma read_moment : forall py_u a p w d w',
  fa_name a = NPath p -> not_pipe w p -> no_block w ->
  read_from_file py_u a w = (Ok d, w') ->
  exists past c, w_env w = past ++ w_env w' /\ (fa_locking a = false -> past = [])
    /\ has_content w p c /\ d = content_after past c /\ has_content w' p d
    /\ (fa_locking a = true -> forall u, w_names w p = Some u -> ~ kept_out false (w_pid w) u (locks_after past (w_kern w))).
Proof.
  intros py_u a p w d w' Hn Np Nb H. unfold read_from_file in H.
  destruct (with_open_cases _ _ _ _ _ _ H) as [(e & _ & X)|(s & w1 & b' & Ho & Hb & ->)]; [discriminate|].
  pose proof (read_prelude py_u a p Hn) as Ep. destruct (has_text_args a).
  { exfalso. unfold rsopen in Ho. unfold prelude_of in Ep. rewrite Ep in Ho. discriminate. }
  set (rk := mkRaw _ _ _ _ _ _ _ _ _ _ _) in *. set (ek := mkExt _ _ _) in *.
  destruct (rsopen_ready py_u (open_args a read_mode) p w s w1 rk ek) as (fd & o & i & i1 & i2 & w0 & wl & R); auto.
  { repeat split; auto. }
  pose proof (rd_open _ _ _ _ _ _ _ _ _ _ _ _ _ _ R) as Op.
  pose proof (rd_dirty _ _ _ _ _ _ _ _ _ _ _ _ _ _ R eq_refl) as ->.
  pose proof (rd_live _ _ _ _ _ _ _ _ _ _ _ _ _ _ R) as L.
  destruct (ready_fresh _ _ _ _ _ _ _ _ _ _ _ _ _ _ R) as (Rd & _ & _).
  assert (Ly : st_layer s = LRaw \/ st_layer s = LReader).
  { destruct (rd_layer _ _ _ _ _ _ _ _ _ _ _ _ _ _ R) as [(-> & _)|(_ & _ & ->)]; auto. }
  assert (Nb1 : no_block w1) by (eapply no_block_incl; [eapply ready_io; eauto|exact Nb]).
  unfold finally in Hb. destruct (read_whole (st_layer s) _) as [r1 b1] eqn:E1.
  destruct (s_close (st_layer s) b1) as [r2 b2] eqn:E2. destruct r2 as [u2|]; [|discriminate]. injection Hb as -> ->.
  apply (read_whole_good _ _ _ _ o i1) in E1; auto.
  2:{ rewrite (op_pos _ _ _ _ _ _ _ Op). reflexivity. }
  destruct E1 as (-> & w2 & o2 & -> & L2 & F2 & I2).
  assert (I3 : w_inodes (b_w b') = w_inodes w2 /\ w_names (b_w b') = w_names w2 /\ w_env (b_w b') = w_env w2).
  { unfold s_close, on_stream in E2. destruct Ly as [Ey|Ey]; rewrite Ey in E2; cbn [kind_of] in E2.
    - apply raw_close_b_inodes in E2. split; [|split]; apply E2.
    - unfold b_close in E2. cbn [fresh b_raw] in E2. rewrite (lv_open _ _ _ _ L2) in E2.
      assert (Fl : b_flush BReader (fresh (st_raw s) (st_bufsize s) w2) = (Ok tt, fresh (st_raw s) (st_bufsize s) w2)).
      { unfold b_flush, bind, b_check_closed, on_raw, raw_flush. cbn [fresh b_raw b_w].
        rewrite (lv_open _ _ _ _ L2). cbv beta iota zeta. cbn [fresh b_raw b_w]. rewrite (check_closed_live _ _ _ _ L2). reflexivity. }
      unfold finally in E2. change (mkB (st_raw s) (st_bufsize s) [] 0 [] w2) with (fresh (st_raw s) (st_bufsize s) w2) in E2.
      rewrite Fl in E2.
      destruct (raw_close_b (fresh (st_raw s) (st_bufsize s) w2)) as [r3 b3] eqn:E3. apply raw_close_b_inodes in E3.
      destruct r3; injection E2 as _ <-; (split; [|split]); apply E3. }
  destruct (ready_content _ _ _ _ _ _ _ _ _ _ _ _ _ _ R) as (past & P1 & P2 & P3 & P4 & P5).
  destruct (op_how _ _ _ _ _ _ _ Op) as [(A & _)|(_ & A & _)]; [|discriminate].
  destruct I3 as (J1 & J2 & J3). exists past, (n_data i). rewrite J3, (fr_env _ _ _ _ F2).
  split; [exact P1|]. split; [exact P2|]. split; [destruct P3 as [P3|[P3 _]]; [exact P3|congruence]|].
  split; [exact P4|]. split.
  - exists (o_uid o), i1. rewrite J1, J2, I2, (fr_names _ _ _ _ F2).
    split; [eapply ready_name; eauto|]. split; [apply L|]. split; [apply L|reflexivity].
  - intros X u Y. rewrite A in Y. injection Y as <-. rewrite (proj1 (proj2 (ready_fresh _ _ _ _ _ _ _ _ _ _ _ _ _ _ R))) in P5. exact (P5 X).
Qed.
Theorem C36_read : forall py_u a p w d w',
  fa_name a = NPath p -> not_pipe w p -> no_block w ->
  read_from_file py_u a w = (Ok d, w') ->
  exists past c, w_env w = past ++ w_env w' /\ (fa_locking a = false -> past = [])
    /\ has_content w p c /\ d = content_after past c /\ has_content w' p d.
Proof.
  intros py_u a p w d w' Hn Np Nb H.
  destruct (read_moment _ _ _ _ _ _ Hn Np Nb H) as (past & c & A1 & A2 & A3 & A4 & A5 & _). exists past, c. auto.
Qed.

(** What was written is what is read, whatever the file contained, whatever the
    buffering and the partial writes and reads. *)
Theorem C36_round_trip_partial : forall py_u has_fdatasync a p d sync must_create must_not_create w w1 py_u' a' d' w2,
  fa_name a = NPath p -> fa_name a' = NPath p -> not_pipe w p ->
  (must_create = true -> fa_locking a = true -> no_writer w) -> fa_buffering a <> Some 0 ->
  write_to_file py_u has_fdatasync a d sync must_create must_not_create w = (Ok tt, w1) ->
  no_block w1 -> (fa_locking a' = false \/ no_writer w1) ->
  read_from_file py_u' a' w1 = (Ok d', w2) -> d' = d.
Proof.
  intros py_u h a p d sync mc mn w w1 py_u' a' d' w2 Hn Hn' Np Hmc Hb Hw Nb Nw Hr.
  destruct (C36_write _ _ _ _ _ _ _ _ _ _ _ Hn Np Hmc Hw) as [(e & X & _)|(x & y & -> & (u & i & A1 & A2 & A3 & A4) & _ & _ & B & _)]; [discriminate|].
  rewrite (B eq_refl Hb), app_nil_r in *.
  assert (Np1 : not_pipe w1 p).
  { intros u' i' E1 E2. rewrite A1 in E1. injection E1 as <-. rewrite A2 in E2. injection E2 as <-. congruence. }
  destruct (C36_read _ _ _ _ _ _ Hn' Np1 Nb Hr) as (past & c & C1 & C2 & (u' & i' & E1 & E2 & _ & E4) & -> & _).
  rewrite (past_none _ _ _ _ c C1 C2 Nw).
  rewrite A1 in E1. injection E1 as <-. rewrite A2 in E2. injection E2 as <-. congruence.
Qed.

(** With buffering = 0 the count returned by write() is ignored: after a short write (disk nearly
    full, signal) the call returns and part of the data is not in the file. *)
Definition args (buffering : option Z) : fileargs := mkFA (NPath (name "f")) buffering false false false true PNone.
Theorem C36_unbuffered_round_trip_refuted : exists a d w w1 d' w2,
  fa_name a = NPath (name "f") /\ not_pipe w (name "f") /\ no_writer w
  /\ write_to_file false true a d false false false w = (Ok tt, w1)
  /\ no_block w1 /\ read_from_file false a w1 = (Ok d', w2) /\ d' <> d.
Proof.
  exists (args (Some 0)), [7;8;9], (demo [1;2;3;4] [IoFull; IoFull; IoFull; IoShort 2] [] []).
  destruct (write_to_file false true (args (Some 0)) [7;8;9] false false false
              (demo [1;2;3;4] [IoFull; IoFull; IoFull; IoShort 2] [] [])) as [r w1] eqn:E1.
  destruct (read_from_file false (args (Some 0)) w1) as [r2 w2] eqn:E2.
  exists w1, [7;8], w2. vm_compute in E1. injection E1 as <- <-. vm_compute in E2. injection E2 as <- <-.
  split; [reflexivity|]. split; [|split; [|split; [reflexivity|split; [|split; [reflexivity|discriminate]]]]].
  - intros u i. vm_compute. intros [= <-] [= <-]. discriminate.
  - intros ev [].
  - split; intros [].
Qed.
Theorem C37_unbuffered_refuted : exists a d w w',
  fa_name a = NPath (name "f") /\ not_pipe w (name "f") /\ no_writer w /\ has_content w (name "f") [1;2]
  /\ append_to_file false true a d false false w = (Ok tt, w') /\ ~ has_content w' (name "f") ([1;2] ++ d).
Proof.
  exists (args (Some 0)), [7;8;9], (demo [1;2] [IoFull; IoFull; IoShort 2] [] []).
  destruct (append_to_file false true (args (Some 0)) [7;8;9] false false (demo [1;2] [IoFull; IoFull; IoShort 2] [] [])) as [r w1] eqn:E1.
  exists w1. vm_compute in E1. injection E1 as <- <-.
  split; [reflexivity|]. split; [|split; [|split; [|split; [reflexivity|]]]].
  - intros u i. vm_compute. intros [= <-] [= <-]. discriminate.
  - intros ev [].
  - exists (1, 10), (mkIno KReg [1;2] false). repeat split; reflexivity.
  - intros (u & i & A & B & _ & D). vm_compute in A. injection A as <-. vm_compute in B. injection B as <-. discriminate.
Qed.

(** With must_create the file is not erased after the lock is obtained: if another process found
    the new file, locked it and wrote in it first, the end of what it wrote stays after our data. *)
Definition args_g : fileargs := mkFA (NPath (name "g")) None false false false true PNone.
Definition race : world :=
  demo [] [] [mkEv 1 (Some []) None (Some [1;2;3;4;5])] [mkSeg 200 (1, 30) false 0 None].
Theorem C36_must_create_erases_refuted : exists a d w w',
  fa_name a = NPath (name "g") /\ not_pipe w (name "g") /\ fa_buffering a <> Some 0 /\ w_names w (name "g") = None
  /\ write_to_file false true a d false true false w = (Ok tt, w') /\ ~ has_content w' (name "g") d.
Proof.
  exists args_g, [7;8], race.
  destruct (write_to_file false true args_g [7;8] false true false race) as [r w1] eqn:E1.
  exists w1. vm_compute in E1. injection E1 as <- <-.
  split; [reflexivity|]. split; [|split; [discriminate|split; [reflexivity|split; [reflexivity|]]]].
  - intros u i. vm_compute. discriminate.
  - intros (u & i & A & B & _ & D). vm_compute in A. injection A as <-. vm_compute in B. injection B as <-. discriminate.
Qed.

(** * C38 *)

(** The sync argument. *)
Theorem C38_write_to_file_durable : forall py_u has_fdatasync a p d must_create must_not_create w w',
  fa_name a = NPath p -> not_pipe w p -> fa_buffering a <> Some 0 ->
  (must_create = true -> fa_locking a = true -> no_writer w) ->
  write_to_file py_u has_fdatasync a d true must_create must_not_create w = (Ok tt, w') ->
  exists u, w_names w' p = Some u /\ durable w' u d.
Proof.
  intros py_u h a p d mc mn w w' Hn Np Hb Hm H.
  destruct (C36_write _ _ _ _ _ _ _ _ _ _ _ Hn Np Hm H) as [(e & X & _)|(x & y & -> & _ & _ & _ & C & D)]; [discriminate|].
  rewrite (C eq_refl Hb), app_nil_r. auto.
Qed.
Theorem C38_append_to_file_durable : forall py_u has_fdatasync a p d must_not_create w w',
  fa_name a = NPath p -> not_pipe w p -> fa_buffering a <> Some 0 ->
  append_to_file py_u has_fdatasync a d true must_not_create w = (Ok tt, w') ->
  exists u c, w_names w' p = Some u /\ has_content w' p (c ++ d) /\ durable w' u (c ++ d).
Proof.
  intros py_u h a p d mn w w' Hn Np Hb H.
  destruct (C37_append _ _ _ _ _ _ _ _ _ _ Hn Np H) as [(e & X & _)|(past & c & x & y & _ & _ & _ & -> & A & _ & C & D)]; [discriminate|].
  rewrite (C eq_refl Hb), app_nil_r in *. destruct (D eq_refl eq_refl) as (u & U1 & U2). eauto.
Qed.

(** What a descriptor makes of bytes written through it. *)
Definition put (o : ofd) (c d : list Z) : list Z :=
  if o_app o then c ++ d else write_at c (Z.to_nat (o_pos o)) d.
Lemma flush_loop_any : forall fuel b o i b', live (b_raw b) (b_w b) o i -> f_writable (b_raw b) = true ->
  flush_loop fuel b = (Ok tt, b') ->
  exists o' i', live (b_raw b') (b_w b') o' i' /\ b_raw b' = b_raw b /\ sameo o o' /\ b_wbuf b' = []
    /\ n_data i' = put o (n_data i) (b_wbuf b).
Proof.
  induction fuel as [|fuel IH]; intros b o i b' L W H; [discriminate|]. cbn [flush_loop] in H.
  destruct (b_wbuf b) as [|x0 l] eqn:Ew.
  { injection H as <-. exists o, i. split; [exact L|]. split; [reflexivity|]. split; [auto with frame|]. split; [exact Ew|].
    unfold put. rewrite app_nil_r. now destruct (o_app o). }
  set (buf := x0 :: l) in *. clearbody buf. clear x0 l. unfold bind, on_raw at 1 in H.
  destruct (o_wr o) eqn:Wo.
  2:{ exfalso. assert (raw_write (b_raw b) buf (b_w b) = (Err (EOS EBADF), b_w b)) as E.
      { unfold raw_write, inner_write, bind. rewrite (check_closed_live _ _ _ _ L), (check_writable_live _ _ _ _ L), W.
        now rewrite (sys_write_norights _ _ _ _ _ L Wo). }
      rewrite E in H. discriminate. }
  rewrite (raw_write_live _ _ _ _ buf L W Wo) in H.
  assert (Step : forall e, let wb := write_bytes e buf in
    flush_loop fuel (set_wbuf (set_world b (upd_fd (upd_ino (set_io (b_w b) (tl (w_io (b_w b)))) (o_uid o) (write_ino o i wb))
                 (fd_of (b_raw b)) (Some (set_pos o (write_pos o i + len wb))))) (skipn (Z.to_nat (len wb)) buf)) = (Ok tt, b') ->
    exists o' i', live (b_raw b') (b_w b') o' i' /\ b_raw b' = b_raw b /\ sameo o o' /\ b_wbuf b' = []
      /\ n_data i' = put o (n_data i) buf).
  { intros e wb Hs. pose proof (write_pos_nonneg _ _ _ _ L) as P. pose proof (len_nonneg wb) as P2.
    apply (IH _ (set_pos o (write_pos o i + len wb)) (write_ino o i wb)) in Hs; [|apply live_pos; [|lia]|exact W].
    2:{ apply (live_data _ _ _ i); [now apply live_io|reflexivity]. }
    destruct Hs as (o' & i' & L' & R' & S' & W' & D'). exists o', i'. split; [exact L'|]. split; [exact R'|].
    split; [eapply sameo_trans; [apply sameo_pos|exact S']|]. split; [exact W'|]. rewrite D'. unfold put, write_ino, write_pos.
    cbn [o_app set_pos o_pos n_data set_wbuf b_wbuf]. pose proof (write_bytes_split e buf) as Sp. fold wb in Sp.
    destruct (o_app o) eqn:Ea.
    - unfold len at 1. rewrite Nat2Z.id, write_at_end, <- app_assoc. now rewrite <- Sp.
    - unfold write_pos in P. rewrite Ea in P.
      replace (Z.to_nat (o_pos o + len wb)) with (Z.to_nat (o_pos o) + length wb)%nat by (unfold len; lia).
      rewrite write_at_app. now rewrite <- Sp. }
  destruct (hd IoFull (w_io (b_w b))) as [|k|x]; cbv beta iota zeta in H.
  - destruct ((_ <? _) || _); [discriminate|]. apply (Step IoFull). cbv zeta. cbn [set_world b_wbuf] in H. rewrite Ew in H. exact H.
  - destruct ((_ <? _) || _); [discriminate|]. apply (Step (IoShort k)). cbv zeta. cbn [set_world b_wbuf] in H. rewrite Ew in H. exact H.
  - destruct (x =? EAGAIN); discriminate.
Qed.

(** Every buffered stream that can write, in any state (read-ahead, append mode, failures before): when sync() returns, the
    buffered bytes are in the file, where the descriptor puts them, and the whole file is durable. *)
Theorem C38_sync_everything : forall k b o i has_fdatasync metadata full_flush b',
  live (b_raw b) (b_w b) o i -> f_writable (b_raw b) = true -> k <> BReader ->
  b_sync has_fdatasync k metadata full_flush b = (Ok tt, b') ->
  b_wbuf b' = [] /\ holds_file (b_w b') (o_uid o) (put o (n_data i) (b_wbuf b))
  /\ durable (b_w b') (o_uid o) (put o (n_data i) (b_wbuf b)).
Proof.
  intros k b o i h m ff b' L W Hk H. unfold b_sync, bind in H.
  assert (b_flush k b = flush_loop (S (length (b_wbuf b))) b) as Ef.
  { destruct k; [congruence| |]; unfold b_flush, flush_unlocked, bind, b_check_closed; now rewrite (lv_open _ _ _ _ L). }
  rewrite Ef in H. destruct (flush_loop _ b) as [[[]|e] b1] eqn:E1; [|discriminate].
  apply (flush_loop_any _ _ o i) in E1; auto. destruct E1 as (o1 & i1 & L1 & R1 & S1 & W1 & D1).
  unfold on_raw in H. destruct (raw_sync h (b_raw b1) m ff (b_w b1)) as [r2 w2] eqn:E2. injection H as -> <-.
  cbn [set_world b_wbuf b_w]. split; [exact W1|].
  destruct (C38_raw_sync_durable _ _ _ _ _ _ E2) as (o3 & i3 & F1 & F2 & F3 & F4).
  rewrite (lv_fd _ _ _ _ L1) in F1. injection F1 as <-. rewrite (lv_ino _ _ _ _ L1) in F2. injection F2 as <-.
  rewrite (so_uid _ _ S1), D1 in *. auto.
Qed.
(** Streams that only read have nothing buffered for the file. *)
Theorem C38_sync_reader : forall b o i has_fdatasync metadata full_flush b',
  live (b_raw b) (b_w b) o i ->
  b_sync has_fdatasync BReader metadata full_flush b = (Ok tt, b') -> durable (b_w b') (o_uid o) (n_data i).
Proof.
  intros b o i h m ff b' L H. unfold b_sync, b_flush, bind, b_check_closed, on_raw, raw_flush in H.
  rewrite (lv_open _ _ _ _ L) in H. cbv beta iota zeta in H. rewrite (check_closed_live _ _ _ _ L) in H. cbn [set_world b_raw b_w] in H.
  destruct (raw_sync h (b_raw b) m ff (b_w b)) as [r2 w2] eqn:E2. injection H as -> <-. cbn [set_world b_w].
  destruct (C38_raw_sync_durable _ _ _ _ _ _ E2) as (o3 & i3 & F1 & F2 & F3 & F4).
  rewrite (lv_fd _ _ _ _ L) in F1. injection F1 as <-. rewrite (lv_ino _ _ _ _ L) in F2. injection F2 as <-. exact F4.
Qed.

(** * Non-vacuity *)
Definition outcome_of (x : res unit * world) (u : uid) : option exn * list Z :=
  (match fst x with Ok _ => None | Err e => Some e end, content (snd x) u).
Example C36_example :
  let w := demo [1;2;3;4] [IoFull; IoFull; IoFull; IoShort 2; IoShort 1; IoFull] [] [] in
  let x := write_to_file false true (args None) [7;8;9;10] true false false w in
  outcome_of x (1, 10) = (None, [7;8;9;10])
  /\ fst (read_from_file false (args None) (snd x)) = Ok [7;8;9;10]
  /\ fst (read_from_file false (args (Some 0)) (snd x)) = Ok [7;8;9;10]
  /\ fst (write_to_file false true (args None) [7] true true false w) = Err (EOS EEXIST)
  /\ fst (write_to_file false true args_g [7] true false true w) = Err (EOS ENOENT)
  /\ outcome_of (write_to_file false true args_g [7] true true false w) (1, 30) = (None, [7]).
Proof. vm_compute. repeat split. Qed.

(** While 200 holds the file and appends. *)
Example C37_example :
  let w := demo [1;2] [] [mkEv 1 None None None; mkEv 1 (Some []) None (Some [1;2;3;4]); mkEv 1 None None (Some [0])] [mkSeg 200 (1, 10) false 0 None] in
  outcome_of (append_to_file false true (args None) [5;6] true false w) (1, 10) = (None, [1;2;3;4;5;6])
  /\ outcome_of (append_to_file false true (mkFA (NPath (name "f")) None false false false false PNone) [5;6] true false w) (1, 10) = (None, [1;2;5;6])
  /\ let x := append_to_file false true (args (Some 1)) [5;6;7] false false (demo [1;2] [IoFull; IoFull; IoShort 1; IoErr ENOSPC; IoErr ENOSPC] [] []) in
     outcome_of x (1, 10) = (Some (EOS ENOSPC), [1;2;5]).
Proof. vm_compute. repeat split. Qed.

Print Assumptions C36_write.
Print Assumptions C37_append.
Print Assumptions C37_append_concatenates_partial.
Print Assumptions C37_append_among_others_partial.
Print Assumptions C37_appends_concatenate_partial.
Print Assumptions C36_read.
Print Assumptions C36_round_trip_partial.
Print Assumptions C36_unbuffered_round_trip_refuted.
Print Assumptions C37_unbuffered_refuted.
Print Assumptions C36_must_create_erases_refuted.
Print Assumptions C38_write_to_file_durable.
Print Assumptions C38_append_to_file_durable.
Print Assumptions C38_sync_everything.
Print Assumptions C38_sync_reader.
