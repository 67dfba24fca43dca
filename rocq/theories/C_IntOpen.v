(** C112: RSFileIO(...) when a signal handler raises at one of the instructions of __init__. *)
From Coq Require Import ZArith Ascii String List Bool Lia.
From Verif Require Import M_Base M_Modes M_Registry M_Kernel M_World M_Raw M_IntWrite M_IntClose M_IntOpen S_Locks S_LockFile S_IntClose S_Demo
  P_Raw P_Registry P_RegEff P_Kernel P_Lock P_LockFile P_Close P_Open C_IntClose.
Import ListNotations.
Open Scope Z_scope.

(** * Without the handler *)
Definition undue (s : bstate) : bstate := mkBst None (b_obj s) (b_world s).
(** A computation is interrupted, or is what it is without the handler. *)
Definition same {A} (m : B A) : Prop := forall s r s', m s = (r, s') ->
  r = Err HANDLER /\ b_due s <> None \/ m (undue s) = (r, undue s') /\ (b_due s = None -> b_due s' = None).
Lemma same_ret {A} (a : A) : same (ret a).
Proof. intros s r s' [= <- <-]. right. auto. Qed.
Lemma same_raise {A} e : same (@raise bstate A e).
Proof. intros s r s' [= <- <-]. right. auto. Qed.
Lemma same_step : same step.
Proof. intros [[[|n]|] f w] r s' [= <- <-]; [left|right|right]; repeat split; discriminate || auto. Qed.
Lemma same_outside {A} (m : M A) : same (outside m).
Proof. intros s r s'. unfold outside. cbn. destruct (m (b_world s)). intros [= <- <-]. right. auto. Qed.
Lemma same_object {A} (m : rawio -> M A) : same (fun s => outside (m (b_obj s)) s).
Proof. intros s r s'. unfold outside. cbn. destruct (m (b_obj s) (b_world s)). intros [= <- <-]. right. auto. Qed.
Lemma same_assign g : same (assign g).
Proof. intros s r s' [= <- <-]. right. auto. Qed.
Lemma same_bind {A C} (m : B A) (k : A -> B C) : same m -> (forall a, same (k a)) -> same (x <- m ;; k x).
Proof.
  intros Hm Hk s r s'. unfold bind. destruct (m s) as [[a|e] s1] eqn:E; destruct (Hm _ _ _ E) as [[H1 H2]|[H1 H2]].
  - discriminate.
  - rewrite H1. intros E2. destruct (Hk a _ _ _ E2) as [[H3 H4]|[H3 H4]]; [left|right]; auto.
  - intros [= <- <-]. left. split; [congruence|auto].
  - rewrite H1. intros [= <- <-]. right. auto.
Qed.
Lemma same_keys fd : same (keys_i fd).
Proof.
  unfold keys_i. apply same_bind; [apply same_step|intros ?]. apply same_bind; [apply same_outside|intros [[u k] n]].
  apply same_bind; [apply same_step|intros ?]. apply same_bind; [apply same_step|intros ?]. apply same_assign.
Qed.
Lemma same_path p rk : same (open_path_i p rk).
Proof.
  unfold open_path_i. apply same_bind; [apply same_step|intros ?]. apply same_bind; [apply same_outside|intros fd].
  apply same_bind; [apply same_step|intros ?]. apply same_bind; [apply same_assign|intros ?].
  apply same_bind; [apply same_step|intros ?]. apply same_bind; [apply same_outside|intros [[u k] n]].
  assert (same (step ;; outside (sys_set_inheritable fd (rk_inheritable rk)) ;; keys_i fd)).
  { apply same_bind; [apply same_step|intros ?]. apply same_bind; [apply same_outside|intros ?; apply same_keys]. }
  destruct k; auto using same_raise.
Qed.
Lemma same_create rk : same (create_i rk).
Proof.
  assert (forall d, same (step ;; assign (with_fileno d) ;; keys_i d)).
  { intros d. apply same_bind; [apply same_step|intros ?]. apply same_bind; [apply same_assign|intros ?; apply same_keys]. }
  unfold create_i. destruct (rk_handle rk); auto. destruct (rk_fileno rk); auto. destruct (rk_path rk); auto using same_raise, same_path.
Qed.
Lemma same_settle rk : same (settle_i rk).
Proof.
  unfold settle_i. apply same_bind; [apply same_step|intros ?].
  apply same_bind; [exact (same_object (fun f => sys_fstat (fd_of f)))|intros [[u k] n]].
  assert (forall b, same (step ;; assign (with_seekable b) ;; step ;; (if rk_append rk then fun s => outside (to_end (b_obj s)) s else ret tt) ;; step)).
  { intros b. apply same_bind; [apply same_step|intros ?]. apply same_bind; [apply same_assign|intros ?].
    apply same_bind; [apply same_step|intros ?]. apply same_bind; [|intros ?; apply same_step].
    destruct (rk_append rk); [exact (same_object to_end)|apply same_ret]. }
  destruct k; auto. destruct (wraps rk); [|apply same_raise]. apply same_bind; [apply same_assign|intros ?; apply same_raise].
Qed.
Lemma same_init rk : same (init_i rk).
Proof.
  unfold init_i. apply same_bind; [apply same_step|intros ?]. destruct (init_checks rk); [|apply same_raise].
  apply same_bind; [apply same_create|intros ?; apply same_settle].
Qed.
Lemma open_none rk w : open_i rk None w = raw_open rk w.
Proof.
  unfold open_i, raw_open, raw_init, init_i, bind, step. cbn [b_due]. destruct (init_checks rk) as [[]|e]; [|reflexivity].
  set (f0 := mkRio None None false _ _ _ _ _ _ _).
  assert (K : forall d s, b_due s = None ->
    keys_i d s = match sys_fstat d (b_world s) with
                 | (Ok (u, _, _), w') => (Ok tt, mkBst None (with_keys u (b_obj s)) w')
                 | (Err e, w') => (Err e, mkBst None (b_obj s) w')
                 end).
  { intros d [due f v]. cbn [b_due b_obj b_world]. intros ->. unfold keys_i, bind, step, outside, assign. cbn [b_due b_obj b_world].
    destruct (sys_fstat d v) as [[[[u k] n]|e] v']; reflexivity. }
  assert (C : create_i rk (mkBst None f0 w) = let '(r, f1, w1) := inner_create_streams f0 rk w in (r, mkBst None f1 w1)).
  { unfold create_i, inner_create_streams, open_path_i. destruct (rk_handle rk) as [h|].
    { unfold bind, step, assign. cbn [b_due b_obj b_world]. rewrite K by reflexivity. cbn [b_obj b_world].
      destruct (sys_fstat h w) as [[[[u k] n]|e] v']; reflexivity. }
    destruct (rk_fileno rk) as [h|].
    { unfold bind, step, assign. cbn [b_due b_obj b_world]. rewrite K by reflexivity. cbn [b_obj b_world].
      destruct (sys_fstat h w) as [[[[u k] n]|e] v']; reflexivity. }
    destruct (rk_path rk) as [| |p]; try reflexivity.
    unfold bind, step, assign, outside. cbn [b_due b_obj b_world].
    destruct (sys_open p (unix_open_flags rk) w) as [[fd|e] w1]; [|reflexivity]. cbn [b_due b_obj b_world].
    destruct (sys_fstat fd w1) as [[[[u k] n]|e] w2]; [|reflexivity]. cbn [b_due b_obj b_world].
    destruct k; try reflexivity;
    (cbn [b_due b_obj b_world]; destruct (sys_set_inheritable fd (rk_inheritable rk) w2) as [[x|e] w3]; [|reflexivity]; cbn [b_due b_obj b_world];
     rewrite K by reflexivity; cbn [b_obj b_world]; destruct (sys_fstat fd w3) as [[[[u' k'] n']|e] w4]; reflexivity). }
  rewrite C. destruct (inner_create_streams f0 rk w) as [[[x|e] f1] w1] eqn:Ei; [|reflexivity].
  unfold settle_i, bind, step, assign, outside. cbn [b_due b_obj b_world].
  destruct (sys_fstat (fd_of f1) w1) as [[[[u k] n]|e] w2]; [|reflexivity]. cbn [b_due b_obj b_world].
  assert (Hc : f_closed f1 = false).
  { revert Ei. unfold inner_create_streams.
    repeat match goal with |- context [match ?z with _ => _ end] => destruct z end; intros [= <- <-]; reflexivity. }
  assert (Hs : forall b, with_seekable b f1 = mkRio (f_fd f1) (f_uid f1) false (f_closefd f1) (f_readable f1) (f_writable f1)
                              (f_append f1) b (f_enforced f1) (f_spin f1)).
  { intros b. unfold with_seekable. now rewrite Hc. }
  destruct k; try (destruct (wraps rk); reflexivity);
  (cbn [b_due b_obj b_world]; rewrite Hs; destruct (rk_append rk); [|reflexivity]; unfold to_end; cbn [b_due b_obj b_world];
   match goal with |- context [raw_seek ?a ?b ?c ?d] => destruct (raw_seek a b c d) as [[y|y] w3] end; [reflexivity|];
   destruct y; try reflexivity; cbn [b_due b_obj b_world]; match goal with |- context [?a =? ?b] => destruct (a =? b) end; reflexivity).
Qed.
(** Unless the handler raises, the call is that of M_Raw (C05, C18, C92). *)
Theorem C112_uninterrupted rk due w r w' : open_i rk due w = (r, w') -> (r = Err HANDLER -> due = None) -> raw_open rk w = (r, w').
Proof.
  intros E H. rewrite <- open_none. unfold open_i in *. set (f0 := mkRio None None false _ _ _ _ _ _ _) in *.
  destruct (init_i rk (mkBst due f0 w)) as [x s] eqn:Ex. destruct (same_init rk _ _ _ Ex) as [[-> Hd]|[X _]].
  - injection E as <- <-. exfalso. apply Hd. cbn. apply H. reflexivity.
  - unfold undue in X at 1. cbn [b_obj b_world] in X. rewrite X. destruct x; exact E.
Qed.

(** * Where it is interrupted *)
(** Interrupted before open(2), the call did nothing. *)
Theorem C112_before rk n w : (n <= 1)%nat -> exists e, open_i rk (Some n) w = (Err e, w).
Proof.
  intros Hn. assert (N : n = O \/ n = 1%nat) by lia. unfold open_i. set (f0 := mkRio None None false _ _ _ _ _ _ _).
  assert (C : snd (raw_close f0 w) = w).
  { unfold raw_close, inner_close_streams, bind, ret. cbn. destruct (rk_closefd rk); reflexivity. }
  assert (exists e d, init_i rk (mkBst (Some n) f0 w) = (Err e, mkBst d f0 w)) as (e & d & ->).
  { destruct N as [-> | ->]; unfold init_i, bind, step; cbn [b_due b_obj b_world].
    - do 2 eexists. reflexivity.
    - destruct (init_checks rk); [|do 2 eexists; reflexivity].
      unfold create_i, open_path_i, bind, step. destruct (rk_handle rk); [do 2 eexists; reflexivity|].
      destruct (rk_fileno rk); [do 2 eexists; reflexivity|]. destruct (rk_path rk); do 2 eexists; reflexivity. }
  exists e. cbn [b_obj b_world]. now rewrite C.
Qed.

Lemma none_mine fd l : filter (fun lk => lk_handle lk =? fd) l = [] -> filter (fun lk => negb (lk_handle lk =? fd)) l = l.
Proof.
  induction l as [|a l IH]; cbn; auto. destruct (lk_handle a =? fd); cbn; [discriminate|]. intros X. f_equal. auto.
Qed.
Section Path.
Variables (rk : raw_kwargs) (p : list ascii) (w w1 : world) (fd : Z) (o : ofd) (i : inode).
Hypothesis Hck : init_checks rk = Ok tt.
Hypothesis Hpath : rk_handle rk = None /\ rk_fileno rk = None /\ rk_path rk = NPath p.
Hypothesis Hopen : sys_open p (unix_open_flags rk) w = (Ok fd, w1).
Hypothesis Hfd : w_fds w1 fd = Some o.
Hypothesis Hino : w_inodes w1 (o_uid o) = Some i.
Hypothesis Hkind : n_kind i <> KDir.
Notation u := (o_uid o).
Definition blank : rawio := mkRio None None false (rk_closefd rk) (rk_read rk) (rk_write rk || rk_append rk) (rk_append rk) false
                  (opt_enforced (w_opts w)) (opt_spin (w_opts w)).
Definition inherits : world := upd_fd w1 fd (Some (mkOfd u (o_pos o) (o_rd o) (o_wr o) (o_app o) (o_sync o) (rk_inheritable rk))).

Lemma open_before : w_fds w fd = None /\ (forall d, d <> fd -> w_fds w1 d = w_fds w d) /\ w_reg w1 = w_reg w /\ w_pid w1 = w_pid w
  /\ w_kern w1 = w_kern w /\ incl (w_io w1) (w_io w).
Proof.
  assert (T : of_trunc (unix_open_flags rk) = false).
  { unfold unix_open_flags. destruct (if _ && _ then _ else _), (if rk_must_not_create rk then _ else _). reflexivity. }
  pose proof (sys_open_cases _ _ _ _ _ T Hopen) as X. inversion X; subst; (split; [assumption|]); cbn;
    (split; [|repeat split; apply incl_tl_refl]); intros d Hd; unfold upd; destruct (Z.eqb_spec fd d); congruence.
Qed.
Lemma fstat_known v o' : w_fds v fd = Some o' -> o_uid o' = u -> w_inodes v u = Some i ->
  sys_fstat fd v = (Ok (u, n_kind i, Z.of_nat (length (n_data i))), v).
Proof. intros H1 H2 H3. unfold sys_fstat, bind, get_fd. rewrite H1, H2, H3. unfold ret. now rewrite H2. Qed.
Lemma inherits_fd : w_fds inherits fd = Some (mkOfd u (o_pos o) (o_rd o) (o_wr o) (o_app o) (o_sync o) (rk_inheritable rk)).
Proof. cbn. unfold upd. now rewrite Z.eqb_refl. Qed.

(** The beginning of __init__, instruction by instruction. *)
Lemma begin_at n : init_i rk (mkBst (Some n) blank w) =
  match n with
  | 0%nat | 1%nat => (Err HANDLER, mkBst None blank w)
  | 2%nat => (Err HANDLER, mkBst None blank w1)
  | 3%nat | 4%nat => (Err HANDLER, mkBst None (with_fileno fd blank) w1)
  | 5%nat | 6%nat | 7%nat => (Err HANDLER, mkBst None (with_fileno fd blank) inherits)
  | S (S (S (S (S (S (S (S m))))))) => settle_i rk (mkBst (Some m) (with_keys u (with_fileno fd blank)) inherits)
  end.
Proof.
  destruct Hpath as (H1 & H2 & H3). pose proof (fstat_known w1 o Hfd eq_refl Hino) as F1.
  pose proof (fstat_known inherits _ inherits_fd eq_refl Hino) as F2.
  assert (F3 : sys_set_inheritable fd (rk_inheritable rk) w1 = (Ok tt, inherits)).
  { unfold sys_set_inheritable, inherits. now rewrite Hfd. }
  unfold init_i, bind, step. cbn [b_due b_obj b_world]. destruct n as [|n]; [reflexivity|]. rewrite Hck.
  unfold create_i, open_path_i. rewrite H1, H2, H3. unfold bind, step, outside, assign. cbn [b_due b_obj b_world].
  destruct n as [|n]; [reflexivity|]. cbn [b_due b_obj b_world]. rewrite Hopen. cbn [b_due b_obj b_world].
  destruct n as [|n]; [reflexivity|]. cbn [b_due b_obj b_world].
  destruct n as [|n]; [reflexivity|]. cbn [b_due b_obj b_world]. rewrite F1. cbn [b_due b_obj b_world].
  destruct n as [|n]; [destruct (n_kind i); try reflexivity; now destruct Hkind|].
  destruct (n_kind i) eqn:Ek; try (now destruct Hkind);
  (cbn [b_due b_obj b_world]; rewrite F3; cbn [b_due b_obj b_world]; unfold keys_i, bind, step, outside, assign; cbn [b_due b_obj b_world];
   destruct n as [|n]; [reflexivity|]; cbn [b_due b_obj b_world]; rewrite F2; cbn [b_due b_obj b_world];
   destruct n as [|n]; [reflexivity|]; cbn [b_due b_obj b_world]; destruct n as [|n]; reflexivity).
Qed.

(** The rest only moves the descriptor. *)
Definition late (s : bstate) : Prop :=
  (f_fd (b_obj s) = Some fd /\ f_uid (b_obj s) = Some u /\ f_closed (b_obj s) = false /\ f_closefd (b_obj s) = rk_closefd rk)
  /\ (exists o', w_fds (b_world s) fd = Some o' /\ o_uid o' = u) /\ (forall d, d <> fd -> w_fds (b_world s) d = w_fds w d)
  /\ w_inodes (b_world s) u = Some i /\ w_reg (b_world s) = w_reg w /\ w_pid (b_world s) = w_pid w /\ w_kern (b_world s) = w_kern w
  /\ incl (w_io (b_world s)) (w_io w).
Lemma late_step s r s' : late s -> step s = (r, s') -> late s' /\ (r = Ok tt \/ exists e, r = Err e).
Proof. intros L. unfold step. destruct (b_due s) as [[|n]|]; intros [= <- <-]; split; eauto. Qed.
Lemma late_end s r s' : late s -> outside (to_end (b_obj s)) s = (r, s') -> late s'.
Proof.
  intros ((L1 & L2 & L3 & L4) & (o' & L5 & L6) & L7 & L8 & L9). unfold outside, to_end, raw_seek, check_closed, bind, inner_seek, sys_lseek, get_fd.
  rewrite L3. unfold ret, bind, fd_of. rewrite L1, L5, L6, L8. unfold raise.
  assert (K : late (mkBst (b_due s) (b_obj s) (b_world s))).
  { split; [auto|]. split; [eauto|]. auto. }
  assert (K2 : forall q, late (mkBst (b_due s) (b_obj s) (upd_fd (b_world s) fd (Some (set_pos o' q))))).
  { intros q. split; [auto|]. split; [exists (set_pos o' q); cbn; unfold upd; rewrite Z.eqb_refl; auto|]. split; [|auto].
    intros d Hd. cbn. unfold upd. destruct (Z.eqb_spec fd d); [congruence|auto]. }
  destruct (n_kind i); cbn -[late ESPIPE Z.add Z.ltb]; try (intros [= <- <-]; exact K);
  (destruct (_ <? 0); [intros [= <- <-]; exact K|intros [= <- <-]; apply K2]).
Qed.
Lemma late_assign s g r s' : late s -> f_fd (g (b_obj s)) = f_fd (b_obj s) -> f_uid (g (b_obj s)) = f_uid (b_obj s) ->
  f_closed (g (b_obj s)) = f_closed (b_obj s) -> f_closefd (g (b_obj s)) = f_closefd (b_obj s) -> assign g s = (r, s') -> late s' /\ r = Ok tt.
Proof.
  intros ((L1 & L2 & L3 & L4) & L5) G1 G2 G3 G4 [= <- <-]. split; [|reflexivity]. split; [|exact L5]. cbn. rewrite G1, G2, G3, G4. auto.
Qed.
Lemma late_settle s r s' : late s -> settle_i rk s = (r, s') -> late s'.
Proof.
  intros L. unfold settle_i, bind at 1. destruct (step s) as [r0 s0] eqn:E0. destruct (late_step _ _ _ L E0) as [L0 [-> |(e & ->)]].
  2:{ intros [= <- <-]. exact L0. }
  unfold bind at 1. pose proof L0 as ((K1 & _) & (o' & K2 & K3) & _ & K4 & _).
  assert (F : outside (sys_fstat (fd_of (b_obj s0))) s0 = (Ok (u, n_kind i, Z.of_nat (length (n_data i))), s0)).
  { unfold outside, fd_of. rewrite K1. rewrite (fstat_known _ _ K2 K3 K4). destruct s0; reflexivity. }
  rewrite F. assert (G : forall b x y, (step ;; assign (with_seekable b) ;; step ;;
      (if rk_append rk then fun s => outside (to_end (b_obj s)) s else ret tt) ;; step) s0 = (x, y) -> late y).
  { intros b x y. unfold bind at 1. destruct (step s0) as [r1 s1] eqn:E1. destruct (late_step _ _ _ L0 E1) as [L1 [-> |(e & ->)]].
    2:{ intros [= <- <-]. exact L1. }
    unfold bind at 1. destruct (assign (with_seekable b) s1) as [r2 s2] eqn:E2.
    destruct (late_assign s1 (with_seekable b) _ _ L1 eq_refl eq_refl eq_refl eq_refl E2) as [L2 ->].
    unfold bind at 1. destruct (step s2) as [r3 s3] eqn:E3. destruct (late_step _ _ _ L2 E3) as [L3 [-> |(e & ->)]].
    2:{ intros [= <- <-]. exact L3. }
    unfold bind at 1. destruct (rk_append rk).
    - destruct (outside (to_end (b_obj s3)) s3) as [r4 s4] eqn:E4. pose proof (late_end _ _ _ L3 E4) as L4.
      destruct r4; [|intros [= <- <-]; exact L4]. intros E5. apply (late_step _ _ _ L4 E5).
    - intros E5. apply (late_step _ _ _ L3 E5). }
  destruct (n_kind i) eqn:Ek; try (now destruct Hkind); apply G.
Qed.
Lemma late_start n : late (mkBst n (with_keys u (with_fileno fd blank)) inherits).
Proof.
  destruct open_before as (B1 & B2 & B3 & B4 & B5 & B6). split; [repeat split|]. split; [eexists; split; [apply inherits_fd|reflexivity]|].
  split; [|auto]. intros d Hd. cbn. unfold upd. destruct (Z.eqb_spec fd d); [congruence|auto].
Qed.
Lemma path_closefd : rk_closefd rk = true.
Proof.
  destruct Hpath as (H1 & H2 & H3). revert Hck. unfold init_checks. rewrite H1, H2, H3. cbn [is_some orb negb].
  destruct (rk_closefd rk); [reflexivity|]. cbn [is_some negb andb orb].
  repeat match goal with |- context [if ?b then _ else _] => destruct b end; discriminate.
Qed.
Lemma close_blank v : snd (raw_close blank v) = v /\ snd (raw_close (with_fileno fd blank) v) = v.
Proof. unfold raw_close, inner_close_streams, bind, ret. cbn. destruct (rk_closefd rk); split; reflexivity. Qed.

(** Interrupted between open(2) and the assignment of the two keys of the registry (six instructions), the call leaves the new descriptor
    open; it waits in no registry to be closed, and nobody knows its number. *)
Theorem C112_leaks n : (2 <= n <= 7)%nat ->
  exists w', open_i rk (Some n) w = (Err HANDLER, w') /\ w_fds w fd = None /\ w_fds w' fd <> None /\ w_reg w' = w_reg w.
Proof.
  intros Hn. destruct open_before as (B1 & B2 & B3 & B4 & B5 & B6). unfold open_i. fold blank. rewrite begin_at.
  destruct n as [|[|[|[|[|[|[|[|n]]]]]]]]; try lia; eexists; (split; [reflexivity|]); cbn [b_obj b_world];
    rewrite ?(proj1 (close_blank _)), ?(proj2 (close_blank _)); (split; [exact B1|]).
  1-3: split; [rewrite Hfd; discriminate|exact B3].
  all: split; [rewrite inherits_fd; discriminate|exact B3].
Qed.

Hypothesis Hnz : fd <> 0.
Hypothesis Hmine : mine w u fd = [].
Hypothesis Hpend : NoDup (pending w u) /\ forall d, In d (pending w u) -> exists o', w_fds w d = Some o' /\ o_uid o' = u.
Lemma pend_fresh : ~ In fd (pending w u).
Proof. intros H. destruct (proj2 Hpend _ H) as (o' & X & _). destruct open_before as (B1 & _). congruence. Qed.

(** Interrupted, or failed, at a later instruction, the call closes the descriptor, or leaves it to be closed when the locks of other streams
    on the file are released; nothing else is closed. *)
Theorem C112_no_leak n e w' : (8 <= n)%nat -> open_i rk (Some n) w = (Err e, w') ->
  (table w u = [] -> w_fds w' fd = None) /\ (table w u <> [] -> In fd (pending w' u))
  /\ forall d, d <> fd -> ~ In d (pending w u) -> w_fds w' d = w_fds w d.
Proof.
  intros Hn. assert (exists m, n = S (S (S (S (S (S (S (S m)))))))) as (m & ->) by (exists (n - 8)%nat; lia).
  unfold open_i. fold blank. rewrite begin_at. destruct (settle_i rk _) as [r s] eqn:E. pose proof (late_settle _ _ _ (late_start _) E) as L.
  destruct r as [x|x]; [discriminate|]. intros [= <- <-].
  destruct L as ((L1 & L2 & L3 & L4) & L5 & L6 & L7 & L8 & L9 & L10 & L11).
  assert (R : registry_of (b_world s) = registry_of w) by (unfold registry_of; now rewrite L8, L9).
  assert (P : pending (b_world s) u = pending w u) by (unfold pending; now rewrite R).
  assert (T : table (b_world s) u = table w u) by (unfold table; now rewrite R).
  assert (M : mine (b_world s) u fd = []) by (unfold mine; rewrite T; exact Hmine).
  assert (O : owner (b_obj s) (b_world s) u fd).
  { constructor; auto; [now rewrite L7| |rewrite P; apply pend_fresh].
    split; rewrite P; [apply Hpend|]. intros d Hd. rewrite L6; [now apply Hpend|]. intros ->. now apply pend_fresh. }
  destruct (raw_close_ok _ _ u fd O L3) as (v & C1 & _ & _ & C2 & _ & _ & C3 & C4).
  - rewrite L4. apply path_closefd.
  - rewrite M. intros lk [].
  - rewrite M. congruence.
  - rewrite C1. cbn [snd].
    assert (T2 : table v u = table w u).
    { rewrite C2, T. apply none_mine. exact Hmine. }
    rewrite T2 in C3. split; [|split].
    + intros X. destruct C3 as [(_ & C3 & _)|(C3 & _)]; [exact C3|contradiction].
    + intros X. destruct C3 as [(C3 & _)|(_ & C3 & _)]; [contradiction|exact C3].
    + intros d Hd Hp. rewrite C4; [now apply L6|auto|now rewrite P].
Qed.

(** Wherever the call is interrupted, no lock is lost on a file that streams of the process have locked: neither theirs nor those of other
    processes (closing the new descriptor would release them). *)
Theorem C112_locks_of_others n e w' : table w u <> [] -> open_i rk (Some n) w = (Err e, w') ->
  forall q v sh b, someone_holds w q v sh b -> someone_holds w' q v sh b.
Proof.
  intros Ht. destruct open_before as (B1 & B2 & B3 & B4 & B5 & B6). unfold open_i. fold blank. rewrite begin_at.
  assert (Q0 : forall q v sh b, someone_holds w q v sh b -> someone_holds w1 q v sh b).
  { intros q v sh b (k & X). exists k. rewrite B5. exact X. }
  assert (Q1 : forall q v sh b, someone_holds w q v sh b -> someone_holds inherits q v sh b) by exact Q0.
  destruct n as [|[|[|[|[|[|[|[|m]]]]]]]]; try (intros [= <- <-]; cbn [b_obj b_world];
    rewrite ?(proj1 (close_blank _)), ?(proj2 (close_blank _)); auto).
  destruct (settle_i rk _) as [r s] eqn:E. pose proof (late_settle _ _ _ (late_start _) E) as L.
  destruct r as [x|x]; [discriminate|]. intros [= <- <-].
  destruct L as ((L1 & L2 & L3 & L4) & L5 & L6 & L7 & L8 & L9 & L10 & L11).
  assert (R : registry_of (b_world s) = registry_of w) by (unfold registry_of; now rewrite L8, L9).
  assert (T : table (b_world s) u = table w u) by (unfold table; now rewrite R).
  assert (M : mine (b_world s) u fd = []) by (unfold mine; rewrite T; exact Hmine).
  assert (St : streaming (b_obj s) (b_world s) u fd) by (constructor; auto).
  destruct (close_i (b_obj s) (mkCst None false (b_world s))) as [rc sc] eqn:Ec.
  destruct (C110_uninterrupted _ _ _ _ _ L3 Ec (fun _ => eq_refl)) as [Er _]. rewrite Er. cbn [snd].
  assert (Hot : of_others (b_world s) u fd <> []).
  { unfold of_others. rewrite T. revert Hmine Ht. unfold mine. destruct (table w u) as [|a l]; [congruence|]. cbn.
    destruct (lk_handle a =? fd); discriminate. }
  destruct (C110_locks_of_others _ _ _ _ _ _ _ St ltac:(rewrite M; intros lk []) Hot Ec) as (_ & _ & X).
  intros q v sh b Hq. apply X.
  - destruct Hq as (k & Hk). exists k. rewrite L10. exact Hk.
  - intros (_ & _ & (lk & Hl & _)). rewrite M in Hl. exact Hl.
Qed.
End Path.

(** * A descriptor of the caller *)
Section Wrapped.
Variables (rk : raw_kwargs) (d : Z) (w : world).
(** The object does not own the descriptor; only its position may have moved. *)
Definition spared (s : bstate) : Prop :=
  (f_closefd (b_obj s) = false /\ f_fd (b_obj s) = Some d) /\ w_reg (b_world s) = w_reg w /\ w_pid (b_world s) = w_pid w
  /\ w_fds (b_world s) d <> None /\ (forall c, c <> d -> w_fds (b_world s) c = w_fds w c) /\ w_kern (b_world s) = w_kern w.
Definition spares {A} (m : B A) : Prop := forall s r s', spared s -> m s = (r, s') -> spared s'.
Lemma spares_bind {A C} (m : B A) (k : A -> B C) : spares m -> (forall a, spares (k a)) -> spares (x <- m ;; k x).
Proof.
  intros Hm Hk s r s' P. unfold bind. destruct (m s) as [[a|e] s1] eqn:E; pose proof (Hm _ _ _ P E) as P1.
  - intros E2. exact (Hk a _ _ _ P1 E2).
  - intros [= <- <-]. exact P1.
Qed.
Lemma spares_step : spares step.
Proof. intros s r s' P. unfold step. destruct (b_due s) as [[|n]|]; intros [= <- <-]; exact P. Qed.
Lemma spares_raise {A} e : spares (@raise bstate A e).
Proof. intros s r s' P [= <- <-]. exact P. Qed.
Lemma spares_ret {A} (a : A) : spares (ret a).
Proof. intros s r s' P [= <- <-]. exact P. Qed.
Lemma spares_assign g : (forall f, f_closefd f = false -> f_closefd (g f) = false) -> (forall f, f_fd (g f) = f_fd f) -> spares (assign g).
Proof. intros G1 G2 s r s' ((P1 & P2) & P3) [= <- <-]. split; [|exact P3]. cbn. rewrite G2. auto. Qed.
Lemma fstat_same c v r v' : sys_fstat c v = (r, v') -> v' = v.
Proof. unfold sys_fstat, bind, get_fd. destruct (w_fds v c) as [o|]; [destruct (w_inodes v (o_uid o))|]; intros [= <- <-]; reflexivity. Qed.
Lemma spares_fstat c : spares (fun s => outside (sys_fstat (c (b_obj s))) s).
Proof.
  intros s r s' P. unfold outside. destruct (sys_fstat (c (b_obj s)) (b_world s)) as [x v] eqn:E. apply fstat_same in E. subst v.
  intros [= <- <-]. exact P.
Qed.
Lemma spares_end : spares (fun s => outside (to_end (b_obj s)) s).
Proof.
  intros s r s' P. unfold outside. destruct (to_end (b_obj s) (b_world s)) as [x v] eqn:E. intros [= <- <-].
  pose proof P as ((P1 & P2) & P3 & P4 & P5 & P6 & P7).
  assert (K : v = b_world s \/ exists o, v = upd_fd (b_world s) d (Some o)).
  { revert E. unfold to_end, raw_seek, check_closed, bind. destruct (f_closed (b_obj s)); [intros [= <- <-]; auto|]. unfold ret.
    unfold inner_seek, sys_lseek, bind, get_fd, fd_of. rewrite P2.
    destruct (w_fds (b_world s) d) as [o|] eqn:Eo; [|intros [= <- <-]; auto].
    destruct (w_inodes (b_world s) (o_uid o)) as [i|]; [|intros [= <- <-]; auto]. unfold raise.
    destruct (n_kind i); cbn -[Z.add Z.ltb ESPIPE]; try (intros [= <- <-]; left; reflexivity);
    (destruct (_ <? 0); intros [= <- <-]; [left; reflexivity|right; eexists; reflexivity]). }
  destruct K as [-> |(o & ->)]; [exact P|]. split; [auto|]. split; [auto|]. split; [auto|]. split; [|split; [|auto]].
  - cbn. unfold upd. rewrite Z.eqb_refl. discriminate.
  - intros c Hc. cbn. unfold upd. destruct (Z.eqb_spec d c); [congruence|auto].
Qed.
Lemma spares_rest : spares (keys_i d ;; settle_i rk).
Proof.
  apply spares_bind; [|intros ?].
  - unfold keys_i. apply spares_bind; [apply spares_step|intros ?]. apply spares_bind; [exact (spares_fstat (fun _ => d))|intros [[u k] n]].
    apply spares_bind; [apply spares_step|intros ?]. apply spares_bind; [apply spares_step|intros ?]. apply spares_assign; auto.
  - unfold settle_i. apply spares_bind; [apply spares_step|intros ?].
    apply spares_bind; [exact (spares_fstat fd_of)|intros [[u k] n]].
    assert (G : forall b, spares (step ;; assign (with_seekable b) ;; step ;;
        (if rk_append rk then fun s => outside (to_end (b_obj s)) s else ret tt) ;; step)).
    { intros b. apply spares_bind; [apply spares_step|intros ?]. apply spares_bind; [apply spares_assign; auto|intros ?].
      apply spares_bind; [apply spares_step|intros ?]. apply spares_bind; [|intros ?; apply spares_step].
      destruct (rk_append rk); [apply spares_end|apply spares_ret]. }
    destruct k; auto. destruct (wraps rk); [|apply spares_raise].
    apply spares_bind; [apply spares_assign; auto|intros ?; apply spares_raise].
Qed.
(** Interrupted while it wraps a descriptor of the caller (closefd=False) through which nothing is locked, the call closes nothing, and every lock
    stays. *)
Theorem C112_wrapped n e w' : rk_handle rk = None -> rk_fileno rk = Some d -> rk_closefd rk = false -> w_fds w d <> None ->
  (forall v, mine w v d = []) -> open_i rk (Some n) w = (Err e, w') ->
  w_fds w' d <> None /\ (forall c, c <> d -> w_fds w' c = w_fds w c) /\ w_kern w' = w_kern w.
Proof.
  intros Hh Hf Hcl Hd Hrec E. destruct (Nat.le_gt_cases n 1) as [Hn|Hn].
  { destruct (C112_before rk n w Hn) as (e' & X). rewrite X in E. injection E as _ <-. auto. }
  assert (exists m, n = S (S m)) as (m & ->) by (exists (n - 2)%nat; lia).
  revert E. unfold open_i. set (f0 := mkRio None None false _ _ _ _ _ _ _).
  assert (S0 : spared (mkBst (Some m) (with_fileno d f0) w)) by (split; [split; [exact Hcl|reflexivity]|auto]).
  assert (I0 : init_i rk (mkBst (Some (S (S m))) f0 w) = match init_checks rk with
      | Err e => (Err e, mkBst (Some (S m)) f0 w)
      | Ok _ => (keys_i d ;; settle_i rk) (mkBst (Some m) (with_fileno d f0) w) end).
  { unfold init_i, bind at 1, step at 1. cbn [b_due b_obj b_world]. destruct (init_checks rk); [|reflexivity].
    unfold create_i. rewrite Hh, Hf. reflexivity. }
  rewrite I0. destruct (init_checks rk).
  2:{ intros [= _ <-]. unfold raw_close, inner_close_streams, bind, ret. cbn. rewrite Hcl. cbn. auto. }
  destruct ((keys_i d ;; settle_i rk) (mkBst (Some m) (with_fileno d f0) w)) as [[x|x] s] eqn:Er; [discriminate|]. intros [= _ <-].
  destruct (spares_rest _ _ _ S0 Er) as ((P1 & P2) & P3 & P4 & P5 & P6 & P7).
  assert (C : exists reg, snd (raw_close (b_obj s) (b_world s)) = set_reg (b_world s) reg).
  { unfold raw_close, inner_close_streams, bind. rewrite P1, P2. destruct (f_closed (b_obj s)).
    { exists (w_reg (b_world s)). destruct (b_world s). reflexivity. }
    destruct (f_uid (b_obj s)) as [u|].
    2:{ exists (w_reg (b_world s)). destruct (b_world s). reflexivity. }
    unfold remove_file_locks. pose proof (Hrec u) as R. unfold mine, table, registry_of in R. rewrite P3, P4.
    destruct (r_map (check_forking (w_pid w) (w_reg w)) u) as [en|]; [rewrite R|]; eexists; reflexivity. }
  destruct C as (reg & ->). auto.
Qed.
End Wrapped.

(** * Files *)
Section Files.
Variable w : world.
Definition filed (v : world) : Prop := forall u i, w_inodes w u = Some i -> w_inodes v u = Some i.
Definition files {A} (m : B A) : Prop := forall s r s', filed (b_world s) -> m s = (r, s') -> filed (b_world s').
Lemma files_bind {A C} (m : B A) (k : A -> B C) : files m -> (forall a, files (k a)) -> files (x <- m ;; k x).
Proof.
  intros Hm Hk s r s' P. unfold bind. destruct (m s) as [[a|e] s1] eqn:E; pose proof (Hm _ _ _ P E) as P1.
  - intros E2. exact (Hk a _ _ _ P1 E2).
  - intros [= <- <-]. exact P1.
Qed.
Lemma files_step : files step.
Proof. intros s r s' P. unfold step. destruct (b_due s) as [[|n]|]; intros [= <- <-]; exact P. Qed.
Lemma files_raise {A} e : files (@raise bstate A e).
Proof. intros s r s' P [= <- <-]. exact P. Qed.
Lemma files_ret {A} (a : A) : files (ret a).
Proof. intros s r s' P [= <- <-]. exact P. Qed.
Lemma files_assign g : files (assign g).
Proof. intros s r s' P [= <- <-]. exact P. Qed.
Lemma files_fstat c : files (fun s => outside (sys_fstat (c (b_obj s))) s).
Proof.
  intros s r s' P. unfold outside. destruct (sys_fstat (c (b_obj s)) (b_world s)) as [x v] eqn:E. apply fstat_same in E. subst v.
  intros [= <- <-]. exact P.
Qed.
Lemma files_inheritable fd b : files (outside (sys_set_inheritable fd b)).
Proof. intros s r s' P. unfold outside, sys_set_inheritable. destruct (w_fds (b_world s) fd); intros [= <- <-]; exact P. Qed.
Lemma files_open p rk : files (outside (sys_open p (unix_open_flags rk))).
Proof.
  intros s r s' P. unfold outside. destruct (sys_open p (unix_open_flags rk) (b_world s)) as [x v] eqn:E. intros [= <- <-]. cbn [b_world].
  assert (T : of_trunc (unix_open_flags rk) = false).
  { unfold unix_open_flags. destruct (if _ && _ then _ else _), (if rk_must_not_create rk then _ else _). reflexivity. }
  pose proof (sys_open_cases _ _ _ _ _ T E) as X. inversion X; subst; try exact P.
  intros c i Hc. cbn. unfold upd. destruct (uid_eqb u c) eqn:Eu; [|now apply P].
  apply uid_eqb_eq in Eu. subst c. apply P in Hc. congruence.
Qed.
Lemma files_end : files (fun s => outside (to_end (b_obj s)) s).
Proof.
  intros s r s' P. unfold outside. destruct (to_end (b_obj s) (b_world s)) as [x v] eqn:E. intros [= <- <-]. cbn [b_world].
  assert (K : w_inodes v = w_inodes (b_world s)).
  { revert E. unfold to_end, raw_seek, check_closed, bind. destruct (f_closed (b_obj s)); [intros [= <- <-]; auto|]. unfold ret.
    unfold inner_seek, sys_lseek, bind, get_fd. destruct (w_fds (b_world s) _) as [o|] eqn:Eo; [|intros [= <- <-]; auto].
    destruct (w_inodes (b_world s) (o_uid o)) as [i|]; [|intros [= <- <-]; auto]. unfold raise.
    destruct (n_kind i); cbn -[Z.add Z.ltb ESPIPE]; try (intros [= <- <-]; reflexivity);
    (destruct (_ <? 0); intros [= <- <-]; reflexivity). }
  unfold filed. rewrite K. exact P.
Qed.
Lemma files_keys d : files (keys_i d).
Proof.
  unfold keys_i. apply files_bind; [apply files_step|intros ?]. apply files_bind; [exact (files_fstat (fun _ => d))|intros [[u k] n]].
  apply files_bind; [apply files_step|intros ?]. apply files_bind; [apply files_step|intros ?]. apply files_assign.
Qed.
Lemma files_init rk : files (init_i rk).
Proof.
  unfold init_i. apply files_bind; [apply files_step|intros ?]. destruct (init_checks rk); [|apply files_raise].
  apply files_bind; [|intros ?].
  - assert (W : forall d, files (step ;; assign (with_fileno d) ;; keys_i d)).
    { intros d. apply files_bind; [apply files_step|intros ?]. apply files_bind; [apply files_assign|intros ?; apply files_keys]. }
    unfold create_i. destruct (rk_handle rk); auto. destruct (rk_fileno rk); auto. destruct (rk_path rk); auto using files_raise.
    unfold open_path_i. apply files_bind; [apply files_step|intros ?]. apply files_bind; [apply files_open|intros fd].
    apply files_bind; [apply files_step|intros ?]. apply files_bind; [apply files_assign|intros ?].
    apply files_bind; [apply files_step|intros ?]. apply files_bind; [exact (files_fstat (fun _ => fd))|intros [[u k] n]].
    assert (G : files (step ;; outside (sys_set_inheritable fd (rk_inheritable rk)) ;; keys_i fd)).
    { apply files_bind; [apply files_step|intros ?]. apply files_bind; [apply files_inheritable|intros ?; apply files_keys]. }
    destruct k; auto using files_raise.
  - unfold settle_i. apply files_bind; [apply files_step|intros ?]. apply files_bind; [exact (files_fstat fd_of)|intros [[u k] n]].
    assert (G : forall b, files (step ;; assign (with_seekable b) ;; step ;;
        (if rk_append rk then fun s => outside (to_end (b_obj s)) s else ret tt) ;; step)).
    { intros b. apply files_bind; [apply files_step|intros ?]. apply files_bind; [apply files_assign|intros ?].
      apply files_bind; [apply files_step|intros ?]. apply files_bind; [|intros ?; apply files_step].
      destruct (rk_append rk); [apply files_end|apply files_ret]. }
    destruct k; auto. destruct (wraps rk); [|apply files_raise].
    apply files_bind; [apply files_assign|intros ?; apply files_raise].
Qed.
End Files.
(** Wherever the call is interrupted, and also if it is not, every file that existed exists and has the content it had. *)
Theorem C112_contents rk due w r w' : open_i rk due w = (r, w') -> forall u i, w_inodes w u = Some i -> w_inodes w' u = Some i.
Proof.
  unfold open_i. set (f0 := mkRio None None false _ _ _ _ _ _ _). destruct (init_i rk (mkBst due f0 w)) as [x s] eqn:E.
  assert (F : filed w (b_world s)) by (refine (files_init w rk _ _ _ _ E); intros u i H; exact H). destruct x; intros [= <- <-]; [exact F|].
  assert (K : w_inodes (snd (raw_close (b_obj s) (b_world s))) = w_inodes (b_world s)).
  { destruct (f_closed (b_obj s)) eqn:Hc; [unfold raw_close; now rewrite Hc|].
    destruct (f_uid (b_obj s)) as [v|] eqn:Hu, (f_fd (b_obj s)) as [d|] eqn:Hd;
      try (unfold raw_close, inner_close_streams, bind, ret; rewrite Hc, Hu, ?Hd; destruct (f_closefd (b_obj s)); reflexivity).
    destruct (close_i (b_obj s) (mkCst None false (b_world s))) as [rc sc] eqn:Ec.
    destruct (C110_uninterrupted _ _ _ _ _ Hc Ec (fun _ => eq_refl)) as [Er _]. rewrite Er. cbn [snd].
    now destruct (C110_only_its_own _ _ _ _ _ _ _ Hd Hu Ec) as (_ & H & _). }
  intros u i H. rewrite K. now apply F.
Qed.

(** * What goes wrong *)
(** Interrupted while it wraps a descriptor with closefd=True, the call leaves it open or closes it, depending on the instruction. *)
Definition given : raw_kwargs := mkRaw NNone true true false false false false false (Some 3) None true.
Example given_or_taken : let '(f, w) := demo_open "f" true true false (demo [1; 2; 3] [] [] []) in
  map (fun n => let '(r, w') := open_i given (Some n) w in (match r with Ok _ => true | _ => false end, is_some (w_fds w' 3))) (seq 0 10)
  = [(false, true); (false, true); (false, true); (false, true); (false, true); (false, false); (false, false); (false, false); (false, false);
     (true, true)].
Proof. vm_compute. reflexivity. Qed.
Theorem C112_given_refuted : ~ (forall rk d n n' w w1 w2, rk_fileno rk = Some d ->
  open_i rk (Some n) w = (Err HANDLER, w1) -> open_i rk (Some n') w = (Err HANDLER, w2) -> is_some (w_fds w1 d) = is_some (w_fds w2 d)).
Proof.
  intros H. set (w := snd (demo_open "f" true true false (demo [1; 2; 3] [] [] []))).
  specialize (H given 3 2%nat 6%nat w (snd (open_i given (Some 2%nat) w)) (snd (open_i given (Some 6%nat) w)) eq_refl).
  discriminate (H ltac:(vm_compute; reflexivity) ltac:(vm_compute; reflexivity)).
Qed.
Example wrapped_spared : let '(f, w) := demo_open "f" true true false (demo [1; 2; 3] [] [] []) in
  let rk := mkRaw NNone true true false false false false false (Some 3) None false in
  map (fun n => is_some (w_fds (snd (open_i rk (Some n) w)) 3)) (seq 0 10) = repeat true 10.
Proof. vm_compute. reflexivity. Qed.
(** The descriptor is known to nobody: an interrupted opening leaks it. *)
Theorem C112_no_leak_refuted : ~ (forall rk due w e w', open_i rk due w = (Err e, w') -> rk_closefd rk = true ->
  forall d, w_fds w d = None -> w_fds w' d <> None -> exists v, In d (pending w' v)).
Proof.
  intros H. specialize (H (kw "f" true true false) (Some 2%nat) (demo [1; 2; 3] [] [] []) HANDLER
    (snd (open_i (kw "f" true true false) (Some 2%nat) (demo [1; 2; 3] [] [] []))) eq_refl eq_refl 3 eq_refl ltac:(vm_compute; discriminate)).
  destruct H as (v & X). vm_compute in X. exact X.
Qed.
(** Thirteen places on the demonstration file: is descriptor 3 open afterwards? *)
Example thirteen : map (fun n => let '(r, w) := open_i (kw "f" true true false) (Some n) (demo [1; 2; 3] [] [] []) in
    (match r with Ok _ => true | _ => false end, is_some (w_fds w 3))) (seq 0 13)
  = [(false, false); (false, false); (false, true); (false, true); (false, true); (false, true); (false, true); (false, true);
     (false, false); (false, false); (false, false); (false, false); (true, true)].
Proof. vm_compute. reflexivity. Qed.
(** A second stream is opened on a locked file; interrupted late, its descriptor waits for the lock to be released. *)
Example late_and_locked : let '(f, w) := demo_open "f" true true false (demo [1; 2; 3] [] [] []) in
  let '(_, w) := raw_lock_file f PNone PNone PNone 0 SNone w in
  let '(r, w') := open_i (kw "f" true true false) (Some 9%nat) w in
  let '(_, w'') := raw_unlock_file f PNone PNone 0 w' in
  (r, is_some (w_fds w' 4), pending w' (1, 10), w_kern w', is_some (w_fds w'' 4), is_some (w_fds w'' 3))
  = (Err HANDLER, true, [4], [mkSeg 100 (1, 10) false 0 None], false, true).
Proof. vm_compute. reflexivity. Qed.

Print Assumptions C112_before.
Print Assumptions C112_leaks.
Print Assumptions C112_no_leak.
Print Assumptions C112_locks_of_others.
Print Assumptions C112_no_leak_refuted.
Print Assumptions C112_uninterrupted.
Print Assumptions C112_wrapped.
Print Assumptions C112_given_refuted.
Print Assumptions C112_contents.
