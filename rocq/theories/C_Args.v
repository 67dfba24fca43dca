(** Final theorems about the descriptor behind a stream (C54) and the designation of the
    file (C55). *)
From Coq Require Import ZArith Ascii String List Bool Lia.
From Verif Require Import M_Base M_Modes M_Registry M_Kernel M_World M_Raw M_Open S_Modes S_Locks S_LockFile S_Open S_Args S_Demo
  P_Modes P_Raw P_Registry P_Kernel P_Lock P_LockFile P_Close P_Frame C_Lock P_Open C_Open.
Import ListNotations.
Open Scope Z_scope.

Lemma open_body_raw a ek f w s w' : open_body a ek f w = (Ok s, w') -> st_raw s = f.
Proof.
  intros E1. unfold open_body in E1. revert E1. unfold bind at 1.
  match goal with |- (match ?x with _ => _ end) = _ -> _ => destruct x as [[] w3] end; [|discriminate].
  cbv zeta. unfold bind at 1.
  match goal with |- (match ?x with _ => _ end) = _ -> _ => destruct x as [[] w4] end; [|discriminate].
  unfold bind at 1.
  match goal with |- (match ?x with _ => _ end) = _ -> _ => destruct x as [[] w5] end; [|discriminate].
  match goal with |- context[if ?x <? 0 then raise EAssert else _] => destruct (x <? 0); [discriminate|]; destruct (x =? 0) end; [destruct (ek_binary ek); [|discriminate]; now intros [= <- <-]|].
  unfold bind at 1.
  match goal with |- (match ?x with _ => _ end) = _ -> _ => destruct x as [[] w6] end; [|discriminate];
    (destruct (ek_binary ek); [now intros [= <- <-]|]; unfold bind; destruct (make_text _ _ _) as [[] w7]; [|discriminate]; now intros [= <- <-]).
Qed.
Lemma open_wrap_ok a ek f w s w' : open_wrap a ek f w = (Ok s, w') ->
  st_raw s = f /\ forall d, same_ofd (w_fds w d) (w_fds w' d).
Proof.
  intros H. destruct (open_wrap_cases _ _ _ _ _ _ H) as (r1 & w1 & E1 & [(<- & -> & _)|(e & r2 & _ & _ & _ & e' & X)]); [|discriminate].
  split; [now apply open_body_raw in E1|]. apply open_body_cases in E1.
  assert (SO : forall wa wb, rawf (fd_of f) wa wb -> forall d, same_ofd (w_fds wa d) (w_fds wb d)).
  { intros wa wb R d. destruct (Z.eq_dec d (fd_of f)) as [->|Hd]; [apply R|]. rewrite (rf_fds _ _ _ R d Hd). apply same_ofd_refl. }
  inversion E1 as [e w2 A1 A2 A3|w2 w3 w4 r2 A1 A2 A3 A4 A5|w3 w4 r2 A0 A4 A5]; subst; intros d.
  - apply lock_file_env in A3. destruct A3 as (_ & _ & _ & _ & A3). rewrite <- A3. eapply same_ofd_trans; eauto.
  - eapply same_ofd_trans; eauto.
Qed.

Lemma checks_path rk p : init_checks rk = Ok tt -> by_path rk p -> good_path p /\ rk_closefd rk = true.
Proof.
  intros H (A & B & C). unfold init_checks in H. rewrite A, B, C in H. cbn [is_some b2n orb negb andb] in H.
  rewrite andb_true_r in H.
  destruct (negb (b2n (path_truthy (NPath p)) + 0 + 0 =? 1)%nat) eqn:E1; [discriminate|].
  destruct (negb (rk_read rk) && negb (rk_write rk || rk_append rk)); [discriminate|].
  destruct (rk_must_create rk && rk_must_not_create rk); [discriminate|].
  destruct (rk_closefd rk); [|discriminate]. cbn [negb] in H. destruct (chr_mem "000" p) eqn:E2; [discriminate|].
  split; [|reflexivity]. split.
  - intros ->. discriminate.
  - intros X. apply chr_mem_In in X. congruence.
Qed.

(** The other options do not change what the mode means. *)
Lemma prelude_plain py_u p m rk ek (ts mx enc errs nl : bool) :
  rsopen_prelude py_u (NPath p) m None None true None ts mx enc errs nl = Ok (rk, ek) ->
  rsopen_prelude py_u (NPath p) m None None true None true false false false false = Ok (rk, ek).
Proof.
  unfold rsopen_prelude. destruct (negb ts && mx); [discriminate|]. cbn [negb andb].
  destruct (parse_mode py_u (NPath p) m None None true) as [[rk0 ek0]|e]; [|discriminate].
  destruct (ek_truncate ek0 && negb (rk_write rk0 || rk_append rk0)); [discriminate|].
  destruct (ek_binary ek0 && ek_text ek0); [discriminate|].
  destruct (ek_binary ek0 && enc); [discriminate|]. destruct (ek_binary ek0 && errs); [discriminate|]. destruct (ek_binary ek0 && nl); [discriminate|].
  rewrite !andb_false_r. auto.
Qed.

(** * C54: the descriptor *)

(** Opening by path: a new descriptor, on the file of that name, with exactly the rights
    that the mode asks for. *)
Theorem C54_opened_descriptor py_u a p w s w' : asks_path a p -> rsopen py_u a w = (Ok s, w') ->
  exists fd o, f_fd (st_raw s) = Some fd /\ w_fds w fd = None /\ w_fds w' fd = Some o /\ w_names w' p = Some (o_uid o)
    /\ (std_ok py_u (a_mode a) \/ adv_ok (a_mode a))
    /\ exists wi, fd_rights wi o
         /\ (std_ok py_u (a_mode a) -> std_means (a_mode a) wi) /\ (adv_ok (a_mode a) -> adv_means (a_mode a) wi).
Proof.
  intros Ha H. pose proof (C05_rsopen_entries _ _ _ _ _ _ Ha H) as (_ & _ & N). destruct (N s eq_refl) as [Nm _]. clear N.
  unfold rsopen in H.
  destruct (rsopen_prelude _ _ _ _ _ _ _ _ _ _ _ _) as [[rk ek]|e] eqn:Ep; [|discriminate].
  destruct (prelude_fields _ _ _ _ Ep) as [F _]. destruct (F p Ha) as [Hp Hc]. clear F.
  unfold bind in H. destruct (raw_open rk w) as [[f|e] w1] eqn:Eo; [|discriminate].
  destruct (open_wrap_ok _ _ _ _ _ _ H) as [Er Sf]. rewrite Er in *.
  pose proof (raw_open_path _ _ _ _ _ Hp Eo) as OP. inversion OP as [ | |wx fd o i Hck Hop Hk]; subst.
  destruct (checks_path _ _ Hck Hp) as [Gp Cf]. rewrite Cf in Hc.
  destruct Ha as (A1 & A2 & A3 & A4). rewrite A1, A2, A3, A4, <- Hc in Ep. apply prelude_plain in Ep.
  assert (Pl : plain_open py_u p (a_mode a) = Ok (rk, ek)) by (unfold plain_open; now rewrite Ep, Hck).
  specialize (Sf fd). rewrite (op_fd _ _ _ _ _ _ _ Hop) in Sf. cbn [same_ofd] in Sf.
  destruct (w_fds w' fd) as [o'|] eqn:Eo'; [|contradiction]. destruct Sf as (S1 & S2 & S3 & S4 & S5 & S6).
  exists fd, o'. split; [reflexivity|]. split; [apply (op_was _ _ _ _ _ _ _ Hop)|]. split; [exact Eo'|].
  split; [rewrite Nm, S1, <- H0; reflexivity|].
  split; [apply (accepts_iff py_u p (a_mode a) Gp); eauto|].
  exists (wish_of rk ek). split; [|split; intros X; [eapply std_meaning; eauto|eapply adv_meaning; eauto]].
  assert (Wa : rk_append rk = true -> rk_write rk = true).
  { destruct (proj1 (accepts_iff py_u p (a_mode a) Gp) ltac:(eauto)) as [X|X].
    - pose proof (std_meaning _ _ _ _ _ Gp X Pl) as (_ & B & C & _). unfold says in *. cbn in B, C. intuition.
    - pose proof (adv_meaning _ _ _ _ _ Gp X Pl) as (_ & B & C & _). unfold says in *. cbn in B, C. intuition. }
  pose proof (op_rd _ _ _ _ _ _ _ Hop) as Q1. pose proof (op_wr _ _ _ _ _ _ _ Hop) as Q2.
  assert (Wo : rk_write rk || rk_append rk = rk_write rk) by (destruct (rk_write rk), (rk_append rk); auto; now specialize (Wa eq_refl)).
  rewrite Wo in *.
  constructor; cbn [wish_of w_read w_write w_append w_sync w_inherit].
  - intros X. rewrite S2, Q1, X. now destruct (rk_write rk).
  - intros X Y. rewrite S2, Q1, X, Y. reflexivity.
  - congruence.
  - rewrite S4. apply Hop.
  - rewrite S5. apply Hop.
  - rewrite S6. apply Hop.
Qed.

(** In particular: kept by exec exactly with the flag "I" of advanced modes. *)
Corollary C54_inheritable_iff py_u a p w s w' fd o : asks_path a p -> rsopen py_u a w = (Ok s, w') ->
  f_fd (st_raw s) = Some fd -> w_fds w' fd = Some o -> (o_inh o = true <-> In "I"%char (a_mode a)).
Proof.
  intros Ha H E1 E2. destruct (C54_opened_descriptor _ _ _ _ _ _ Ha H) as (fd' & o' & X1 & _ & X2 & _ & X3 & wi & G & S & A).
  rewrite E1 in X1. injection X1 as <-. rewrite E2 in X2. injection X2 as <-. rewrite (gr_inh _ _ G).
  destruct X3 as [X|X].
  - destruct (S X) as (_ & _ & _ & _ & _ & _ & I1 & _). rewrite I1. split; [discriminate|]. intros Y. exfalso.
    destruct X as (_ & X & _). destruct (X _ Y) as [Z|[Z _]]; [|discriminate]. cbn in Z.
    repeat (destruct Z as [Z|Z]; [discriminate|]). contradiction.
  - destruct (A X) as (_ & _ & _ & _ & _ & _ & I1 & _). exact I1.
Qed.

(** A descriptor that is wrapped is left as it is, apart from its position. *)
Lemma raw_open_wrapped rk w f w1 d : raw_open rk w = (Ok f, w1) -> rk_handle rk = Some d \/ (rk_handle rk = None /\ rk_fileno rk = Some d) ->
  f_fd f = Some d /\ rawf d w w1.
Proof.
  unfold raw_open. destruct (raw_init rk w) as [[[[]|e] f1] wa] eqn:Ei; [|discriminate]. intros [= -> ->] Hd.
  unfold raw_init in Ei. destruct (init_checks rk); [|discriminate]. cbv zeta in Ei.
  set (f0 := mkRio None _ _ _ _ _ _ _ _ _) in Ei.
  destruct (inner_create_streams f0 rk w) as [[[[]|e] f1] w2] eqn:Ec; [|discriminate].
  assert (f_fd f1 = Some d /\ w2 = w) as [F1 ->].
  { unfold inner_create_streams in Ec.
    assert (Ef : (match sys_fstat d w with
      | (Ok (u, _, _), w') => (Ok tt, mkRio (Some d) (Some u) (f_closed f0) (f_closefd f0) (f_readable f0) (f_writable f0) (f_append f0)
          (f_seekable f0) (f_enforced f0) (f_spin f0), w')
      | (Err e, w') => (Err e, mkRio (Some d) None (f_closed f0) (f_closefd f0) (f_readable f0) (f_writable f0) (f_append f0)
          (f_seekable f0) (f_enforced f0) (f_spin f0), w') end) = (Ok tt, f1, w2)).
    { destruct Hd as [Hd|[Hh Hd]]; [rewrite Hd in Ec|rewrite Hh, Hd in Ec]; exact Ec. }
    destruct (sys_fstat d w) as [[[[u k] n]|e] w3] eqn:E; [|discriminate]. apply fstat_ok in E. destruct E as (-> & _).
    injection Ef as <- <-. auto. }
  destruct (sys_fstat (fd_of f1) w) as [[[[u' k] n]|e] w3] eqn:Es; [|discriminate].
  apply fstat_ok in Es. destruct Es as (-> & _).
  destruct (match k with KDir => true | _ => false end) eqn:Ek.
  { destruct k; try discriminate. destruct (wraps rk); discriminate. }
  set (f2 := mkRio (f_fd f1) _ _ _ _ _ _ _ _ _) in Ei.
  assert ((if rk_append rk then
                match raw_seek f2 0 2 w with
                | (Ok _, w3) => (Ok tt, f2, w3)
                | (Err (EOS e), w3) => if e =? ESPIPE then (Ok tt, f2, w3) else (Err (EOS e), f2, w3)
                | (Err e, w3) => (Err e, f2, w3)
                end
              else (Ok tt, f2, w)) = (Ok tt, f, w1)) as Y by (destruct k; try discriminate Ek; exact Ei).
  clear Ei. assert (fd_of f2 = d) as X by (unfold fd_of; cbn; now rewrite F1).
  destruct (rk_append rk); [|injection Y as <- <-; split; [exact F1|apply rawf_refl]].
  destruct (raw_seek f2 0 2 w) as [r4 w4] eqn:E4. apply raw_seek_within in E4. rewrite X in E4.
  destruct r4 as [z|[]]; try discriminate Y; [injection Y as <- <-; auto|].
  destruct (errno =? ESPIPE); [injection Y as <- <-; auto|discriminate].
Qed.

(** What the prelude makes of the designations. *)
Lemma prelude_wrapped py_u a d rk ek :
  rsopen_prelude py_u (a_name a) (a_mode a) (a_fileno a) (a_handle a) (a_closefd a)
          (a_opener a) (a_thread_safe a) (a_mutex a) (a_enc a) (a_errs a) (a_nl a) = Ok (rk, ek) ->
  init_checks rk = Ok tt -> given a d -> rk_handle rk = Some d \/ (rk_handle rk = None /\ rk_fileno rk = Some d).
Proof.
  unfold rsopen_prelude. destruct (_ && _); [discriminate|].
  destruct (parse_mode _ _ _ _ _ _) as [[rk0 ek0]|e] eqn:Ep; [|discriminate].
  destruct (parse_mode_fields _ _ _ _ _ _ _ _ Ep) as (P1 & P2 & P3).
  intros H.
  match type of H with match ?x with _ => _ end = _ => destruct x as [rk1|e1] eqn:E1; [|discriminate] end.
  repeat match type of H with (if ?x then _ else _) = _ => destruct x; [discriminate|] end.
  injection H as <- _. intros Hck Hd. unfold init_checks in Hck.
  assert (Ni : forall n, rk_path rk1 <> NInt n). { intros n Hn. rewrite Hn in Hck. discriminate. }
  assert (C1 : (b2n (path_truthy (rk_path rk1)) + b2n (is_some (rk_fileno rk1)) + b2n (is_some (rk_handle rk1)))%nat = 1%nat).
  { destruct (rk_path rk1) as [|q|n] eqn:Eq; [| |now destruct (Ni n)];
      (destruct (negb _) eqn:X in Hck; [discriminate|]; apply negb_false_iff, Nat.eqb_eq in X; exact X). }
  assert (Fh : forall x y, rk_fileno rk1 = Some x -> rk_handle rk1 = Some y -> False).
  { intros x y X Y. rewrite X, Y in C1. cbn [is_some b2n] in C1. lia. }
  unfold given in Hd. destruct (a_opener a) as [fd|].
  - destruct (truthy (rk_fileno rk0)); [discriminate|]. destruct (fd <? 0); [discriminate|]. injection E1 as <-. cbn [rk_fileno rk_handle] in *. subst fd.
    destruct (rk_handle rk0) eqn:Eh; [exfalso; eapply Fh; reflexivity|auto].
  - injection E1 as <-. destruct Hd as [Hd|[Hd|Hd]].
    + destruct P3 as [[P3 P4]|(n & X & Y & Z)]; [|congruence]. right. rewrite Hd in P4. destruct (rk_handle rk0) eqn:Eh; [exfalso; eapply Fh; eauto|auto].
    + left. congruence.
    + destruct P3 as [[P3 P4]|(n & X & Y & Z1 & Z2)]; [exfalso; apply (Ni d); congruence|]. rewrite Hd in X. injection X as <-.
      right. destruct (rk_handle rk0) eqn:Eh; [exfalso; eapply Fh; eauto|auto].
Qed.

Theorem C54_wrapped_descriptor py_u a d w s w' : given a d -> rsopen py_u a w = (Ok s, w') ->
  f_fd (st_raw s) = Some d /\ w_fds w d <> None /\ forall x, same_ofd (w_fds w x) (w_fds w' x).
Proof.
  intros Hg H. unfold rsopen in H.
  destruct (rsopen_prelude _ _ _ _ _ _ _ _ _ _ _ _) as [[rk ek]|e] eqn:Ep; [|discriminate].
  unfold bind in H. destruct (raw_open rk w) as [[f|e] w1] eqn:Eo; [|discriminate].
  destruct (open_wrap_ok _ _ _ _ _ _ H) as [Er Sf]. rewrite Er.
  assert (Hck : init_checks rk = Ok tt).
  { unfold raw_open, raw_init in Eo. destruct (init_checks rk) as [[]|e]; [reflexivity|discriminate]. }
  pose proof (prelude_wrapped _ _ _ _ _ Ep Hck Hg) as Hd.
  destruct (raw_open_wrapped _ _ _ _ _ Eo Hd) as [F R]. split; [exact F|]. split.
  - destruct (raw_open_shape _ _ _ _ Eo) as (u & fd & o & i & _ & F2 & _ & _ & F3 & _). rewrite F in F2. injection F2 as <-.
    pose proof (rf_fd _ _ _ R) as X. rewrite F3 in X. destruct (w_fds w d); [discriminate|contradiction].
  - intros x. eapply same_ofd_trans; [|apply Sf]. destruct (Z.eq_dec x d) as [->|Hx]; [apply R|]. rewrite (rf_fds _ _ _ R x Hx). apply same_ofd_refl.
Qed.

(** The rights of a wrapped descriptor are not compared with the mode. *)
Definition rights_checked : Prop := forall py_u a d w s w' o, given a d -> rsopen py_u a w = (Ok s, w') -> w_fds w d = Some o ->
  (f_readable (st_raw s) = true -> o_rd o = true) /\ (f_writable (st_raw s) = true -> o_wr o = true).
Theorem C54_rights_checked_refuted : ~ rights_checked.
Proof.
  intros H. destruct (rsopen true (args NNone "rb" (Some 4) (Some 8) false) (with_fd 4)) as [[s|e] w'] eqn:E.
  - assert (f_readable (st_raw s) = true) as R by (vm_compute in E; injection E as <- _; reflexivity).
    assert (given (args NNone "rb" (Some 4) (Some 8) false) 4) as G by (left; reflexivity).
    destruct (H _ _ 4 _ _ _ _ G E eq_refl) as [X _]. specialize (X R). discriminate.
  - vm_compute in E. discriminate.
Qed.

Example C54_example :
  let inh mode := match rsopen true (by_name "f" mode None false) (demo [1; 2; 3] [] [] []) with
                  | (Ok s, w) => match w_fds w (fd_of (st_raw s)) with
                                 | Some o => Some (o_rd o, o_wr o, o_app o, o_sync o, o_inh o) | None => None end
                  | _ => None end in
  inh "RI"%string = Some (true, false, false, false, true) /\ inh "r+"%string = Some (true, true, false, false, false)
  /\ inh "ASB"%string = Some (false, true, true, true, false).
Proof. vm_compute. auto. Qed.

(** * C55: one designation *)

Lemma checks_bad rk : init_checks rk = Ok tt \/ init_checks rk = Err EBadValue.
Proof.
  unfold init_checks.
  repeat match goal with |- context [if ?x then _ else _] => destruct x; auto end.
Qed.
Lemma parse_bad py_u name mode fileno handle closefd e : parse_mode py_u name mode fileno handle closefd = Err e -> e = EBadValue.
Proof.
  unfold parse_mode. destruct (str_eqb _ _).
  - unfold parse_standard_args.
    repeat match goal with |- (if ?x then _ else _) = _ -> _ => destruct x; [now intros [= <-]|] end.
    destruct name as [|p|n]; [discriminate|discriminate|destruct fileno; [now intros [= <-]|discriminate]].
  - destruct (str_eqb _ _); [|now intros [= <-]]. unfold parse_advanced_args. destruct (_ || _); [now intros [= <-]|discriminate].
Qed.
Lemma prelude_bad py_u a e :
  rsopen_prelude py_u (a_name a) (a_mode a) (a_fileno a) (a_handle a) (a_closefd a)
          (a_opener a) (a_thread_safe a) (a_mutex a) (a_enc a) (a_errs a) (a_nl a) = Err e -> e = EBadValue.
Proof.
  unfold rsopen_prelude. destruct (_ && _); [now intros [= <-]|].
  destruct (parse_mode _ _ _ _ _ _) as [[rk0 ek0]|e0] eqn:Ep; [|apply parse_bad in Ep; now intros [= <-]].
  intros H. match type of H with match ?x with _ => _ end = _ => destruct x as [rk1|e1] eqn:E1 end.
  - repeat match type of H with (if ?x then _ else _) = _ => destruct x; [now injection H|] end. discriminate.
  - injection H as <-. destruct (a_opener a); [|discriminate]. destruct (truthy _); [now injection E1|]. destruct (_ <? 0); [now injection E1|discriminate].
Qed.

Lemma accepted_designation py_u a rk ek :
  rsopen_prelude py_u (a_name a) (a_mode a) (a_fileno a) (a_handle a) (a_closefd a)
          (a_opener a) (a_thread_safe a) (a_mutex a) (a_enc a) (a_errs a) (a_nl a) = Ok (rk, ek) ->
  init_checks rk = Ok tt -> (a_opener a <> None -> a_fileno a <> Some 0 /\ a_name a <> NInt 0) -> one_designation a.
Proof.
  unfold rsopen_prelude. destruct (_ && _); [discriminate|].
  destruct (parse_mode _ _ _ _ _ _) as [[rk0 ek0]|e] eqn:Ep; [|discriminate].
  destruct (parse_mode_fields _ _ _ _ _ _ _ _ Ep) as (P1 & P2 & P3).
  intros H.
  match type of H with match ?x with _ => _ end = _ => destruct x as [rk1|e1] eqn:E1; [|discriminate] end.
  repeat match type of H with (if ?x then _ else _) = _ => destruct x; [discriminate|] end.
  injection H as <- _. intros Hck H0. unfold init_checks in Hck.
  assert (Ni : forall n, rk_path rk1 <> NInt n). { intros n Hn. rewrite Hn in Hck. discriminate. }
  assert (C1 : (b2n (path_truthy (rk_path rk1)) + b2n (is_some (rk_fileno rk1)) + b2n (is_some (rk_handle rk1)))%nat = 1%nat).
  { destruct (rk_path rk1) as [|q|n] eqn:Eq; [| |now destruct (Ni n)];
      (destruct (negb _) eqn:X in Hck; [discriminate|]; apply negb_false_iff, Nat.eqb_eq in X; exact X). }
  unfold one_designation. destruct (a_opener a) as [fd|].
  - destruct (truthy (rk_fileno rk0)) eqn:Et; [discriminate|]. destruct (fd <? 0); [discriminate|]. injection E1 as <-.
    cbn [rk_fileno rk_handle rk_path path_truthy is_some b2n] in C1. split.
    + destruct P3 as [[_ P4]|(n & _ & Y & _)]; [|exact Y]. rewrite P4 in Et. destruct (a_fileno a) as [x|] eqn:Ex; [|reflexivity].
      exfalso. cbn in Et. apply negb_false_iff, Z.eqb_eq in Et. subst x. now destruct (H0 ltac:(discriminate)).
    + rewrite P1 in C1. destruct (a_handle a); [cbn in C1; lia|reflexivity].
  - injection E1 as <-. unfold named. destruct P3 as [[P3 P4]|(n & X & Y & Z1 & Z2)].
    + rewrite P1, P3, P4 in C1. rewrite P3 in Ni. destruct (a_name a) as [|[|x q]|n]; [| | |now destruct (Ni n)];
        destruct (a_fileno a), (a_handle a); cbn in C1 |- *; lia.
    + rewrite P1, Z1, Z2 in C1. rewrite X, Y. destruct (a_handle a); cbn in C1 |- *; lia.
Qed.

(** Anything else than one designation is refused, and nothing happens.  Exception: an
    opener together with descriptor 0. *)
Theorem C55_one_designation_partial py_u a w :
  (a_opener a <> None -> a_fileno a <> Some 0 /\ a_name a <> NInt 0) ->
  ~ one_designation a -> rsopen py_u a w = (Err EBadValue, w).
Proof.
  intros H0 Hn. unfold rsopen.
  destruct (rsopen_prelude _ _ _ _ _ _ _ _ _ _ _ _) as [[rk ek]|e] eqn:Ep.
  - unfold bind, raw_open, raw_init. destruct (checks_bad rk) as [Hck|Hck].
    + exfalso. apply Hn. eapply accepted_designation; eauto.
    + rewrite Hck. rewrite raw_close_unbuilt by reflexivity. reflexivity.
  - apply prelude_bad in Ep. subst e. reflexivity.
Qed.

Definition always_one_designation : Prop := forall py_u a w s w', rsopen py_u a w = (Ok s, w') -> one_designation a.
Theorem C55_one_designation_refuted : ~ always_one_designation.
Proof.
  intros H. set (a := mkOA (NPath (name "f")) (name "wb") (Some 0) None true (Some 4) (Some 8) false (PInt 0) false false false false false None).
  destruct (rsopen true a (with_fd 4)) as [[s|e] w'] eqn:E; [|vm_compute in E; discriminate].
  destruct (H _ _ _ _ _ E) as [X _]. discriminate.
Qed.
Example C55_example :
  let r n f := match fst (rsopen true (args n "rb" f (Some 8) false) (with_fd 4)) with Ok s => Ok (f_fd (st_raw s)) | Err e => Err e end in
  r (NPath (name "f")) None = Ok (Some 3) /\ r NNone (Some 4) = Ok (Some 4) /\ r (NInt 4) None = Ok (Some 4)
  /\ r (NPath (name "f")) (Some 4) = Err EBadValue /\ r NNone None = Err EBadValue /\ r (NInt 4) (Some 4) = Err EBadValue /\ r (NPath []) None = Err EBadValue.
Proof. vm_compute. auto 8. Qed.

Print Assumptions C54_opened_descriptor.
Print Assumptions C54_inheritable_iff.
Print Assumptions C54_wrapped_descriptor.
Print Assumptions C54_rights_checked_refuted.
Print Assumptions C55_one_designation_partial.
Print Assumptions C55_one_designation_refuted.
