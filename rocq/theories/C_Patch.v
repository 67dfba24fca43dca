(** Final theorems about the mode attribute (C73) and about what monkey patching puts in the
    place of open() and FileIO (C74). *)
From Coq Require Import ZArith Ascii String List Bool Lia.
From Verif Require Import M_Base M_Modes M_Registry M_Kernel M_World M_Raw M_Open M_Patch S_Modes S_Locks S_LockFile S_Open S_Args S_Demo
  P_Modes P_Raw P_Registry P_Kernel P_Lock P_LockFile P_Close P_Frame C_Lock P_Open C_Open C_Args.
Import ListNotations.
Open Scope Z_scope.

(** * C73: the mode attribute *)

Lemma raw_open_rights rk w f w' : raw_open rk w = (Ok f, w') ->
  f_closed f = false /\ f_readable f = rk_read rk /\ f_writable f = (rk_write rk || rk_append rk) /\ f_append f = rk_append rk
  /\ rk_read rk || (rk_write rk || rk_append rk) = true.
Proof.
  unfold raw_open. destruct (raw_init rk w) as [[[[]|e] f1] w1] eqn:Ei; [|discriminate]. intros [= -> ->].
  unfold raw_init in Ei. destruct (init_checks rk) as [[]|] eqn:Ck; [|discriminate]. cbv zeta in Ei.
  set (f0 := mkRio None _ _ _ _ _ _ _ _ _) in Ei.
  assert (R : rk_read rk || (rk_write rk || rk_append rk) = true).
  { unfold init_checks in Ck. destruct (match rk_path rk with NInt _ => true | _ => false end); [discriminate|].
    destruct (negb (_ =? 1)%nat); [discriminate|]. destruct (rk_read rk), (rk_write rk || rk_append rk); auto. discriminate. }
  destruct (inner_create_streams f0 rk w) as [[[[]|e] f1] w1] eqn:Ec; [|discriminate].
  assert (F : f_readable f1 = f_readable f0 /\ f_writable f1 = f_writable f0 /\ f_append f1 = f_append f0).
  { unfold inner_create_streams in Ec.
    repeat match type of Ec with
           | (match ?x with _ => _ end) = _ => destruct x
           end; try discriminate Ec; injection Ec as <- <-; auto. }
  destruct F as (F1 & F2 & F3).
  destruct (sys_fstat (fd_of f1) w1) as [[[[u k] n]|e] w2]; [|discriminate].
  assert (f_closed f = false /\ f_readable f = f_readable f1 /\ f_writable f = f_writable f1 /\ f_append f = f_append f1) as (-> & -> & -> & ->).
  { destruct k; repeat match type of Ei with
           | (if ?x then _ else _) = _ => destruct x
           | (match ?x with _ => _ end) = _ => destruct x
           end; try discriminate Ei; injection Ei as <- <-; auto. }
  rewrite F1, F2, F3. auto.
Qed.

(** The mode string is a legal standard mode that means the rights of the stream, unless the
    file had to be created and the stream cannot write or appends. *)
Theorem C73_mode_says_rights_partial rk w f w' : raw_open rk w = (Ok f, w') ->
  rk_must_create rk = false \/ (rk_write rk = true /\ rk_append rk = false) ->
  exists m, mode_attr (rk_must_create rk) f = Ok m /\ (forall py_u, std_ok py_u m)
    /\ forall x, std_means m x ->
         w_read x = rk_read rk /\ w_write x = (rk_write rk || rk_append rk) /\ w_append x = rk_append rk
         /\ w_must_create x = rk_must_create rk /\ w_binary x = true
         /\ (w_erase x = true -> rk_read rk = false /\ rk_append rk = false).
Proof.
  intros H Hc. destruct (raw_open_rights _ _ _ _ H) as (C & R & W & A & E).
  unfold mode_attr. rewrite C, R, W, A.
  assert (Y : forall b P, says b P -> P -> b = true) by (intros b P [_ X] p; auto).
  assert (N : forall b P, says b P -> ~ P -> b = false) by (intros b P [X _] p; destruct b; auto; exfalso; auto).
  assert (D : forall m, NoDup m -> (forall c, In c m -> In c ["x"; "a"; "r"; "w"; "+"; "b"; "t"]%char) ->
    (In "x" m \/ In "r" m \/ In "U" m \/ In "w" m \/ In "a" m)%char ->
    ~ (In "x" m /\ (In "r" m \/ In "U" m))%char -> ~ (In "x" m /\ In "w" m)%char -> ~ (In "x" m /\ In "a" m)%char ->
    ~ ((In "r" m \/ In "U" m) /\ In "w" m)%char -> ~ ((In "r" m \/ In "U" m) /\ In "a" m)%char -> ~ (In "w" m /\ In "a" m)%char ->
    ~ (In "U" m /\ In "+" m)%char -> ~ (In "b" m /\ In "t" m)%char -> forall py_u, std_ok py_u m).
  { intros m X1 X2 X3 X4 X5 X6 X7 X8 X9 X10 X11 py. unfold std_ok. repeat (split; [now auto|]). auto. }
  destruct (rk_must_create rk), (rk_append rk), (rk_write rk), (rk_read rk); try discriminate E;
    try (exfalso; destruct Hc as [Hc|[Hc1 Hc2]]; discriminate);
  (eexists; split; [reflexivity|]; split;
   [ apply D; [repeat constructor; cbn; intuition discriminate|cbn; intuition auto|cbn; auto 9
              |cbn; intuition discriminate ..]
   | cbn [orb]; intros x (X1 & X2 & X3 & X4 & X5 & _ & _ & X8 & X9);
     repeat match goal with
     | |- _ /\ _ => split
     | Hx : says (?g x) ?P |- ?g x = true => apply (Y _ _ Hx); cbn; auto 9
     | Hx : says (?g x) ?P |- ?g x = false => apply (N _ _ Hx); cbn; intuition discriminate
     | Hx : says (w_erase x) ?P |- w_erase x = true -> _ => intros Z; apply Hx in Z; cbn in Z; first [exfalso; intuition discriminate | auto]
     end ]).
Qed.
(** Every stream opened with a standard mode. *)
Theorem C73_standard_modes py_u nm m0 fileno handle closefd rk ek w f w' :
  parse_standard_args py_u nm m0 fileno handle closefd = Ok (rk, ek) -> raw_open rk w = (Ok f, w') ->
  exists m, mode_attr (rk_must_create rk) f = Ok m /\ (forall py, std_ok py m)
    /\ forall x y, std_means m x -> std_means m0 y ->
         w_read x = w_read y /\ w_write x = w_write y /\ w_append x = w_append y /\ w_must_create x = w_must_create y.
Proof.
  intros P H.
  assert (K : forall b Q, says b Q -> forall c, (c = true <-> Q) -> c = b).
  { intros b Q S c C. apply eq_true_iff_eq. unfold says in S. tauto. }
  unfold parse_standard_args in P.
  destruct (_ || has_dup m0); [discriminate|]. destruct (chr_mem "U" m0 && _) eqn:EU; [discriminate|].
  destruct (negb (_ =? 1)%nat) eqn:E1; [discriminate|]. apply negb_false_iff, Nat.eqb_eq in E1.
  set (x0 := chr_mem "x" m0) in *. set (r0 := chr_mem "r" m0 || chr_mem "U" m0) in *. set (w0 := chr_mem "w" m0) in *.
  set (a0 := chr_mem "a" m0) in *. set (p0 := chr_mem "+" m0) in *.
  assert (F : rk_read rk = (r0 || p0) /\ rk_write rk = (x0 || w0 || a0 || p0) /\ rk_append rk = a0 /\ rk_must_create rk = x0).
  { destruct nm; [| |destruct fileno; [discriminate|]]; injection P as <- <-; cbn; auto. }
  destruct F as (F1 & F2 & F3 & F4).
  destruct (C73_mode_says_rights_partial rk w f w' H) as (m & M1 & M2 & M3).
  { rewrite F2, F3, F4. destruct x0, r0, w0, a0; cbn in E1; try discriminate E1; auto. }
  exists m. split; [exact M1|]. split; [exact M2|]. intros x y X (Y1 & Y2 & Y3 & Y4 & _).
  destruct (M3 x X) as (A1 & A2 & A3 & A4 & _). rewrite A1, A2, A3, A4, F1, F2, F3, F4.
  pose proof (fun c => chr_mem_In c m0) as CM. repeat split.
  - apply (K _ _ Y1). unfold r0, p0. rewrite !orb_true_iff, !CM. tauto.
  - apply (K _ _ Y2). unfold x0, w0, a0, p0. rewrite !orb_true_iff, !CM. tauto.
  - apply (K _ _ Y3). unfold a0. now rewrite CM.
  - apply (K _ _ Y4). unfold x0. now rewrite CM.
Qed.
Theorem C73_closed mc f : f_closed f = true -> mode_attr mc f = Ok (name "closed").
Proof. intros H. unfold mode_attr. now rewrite H. Qed.

Definition mode_of (m : string) : res (list ascii) * (bool * bool) :=
  match rsopen_prelude true (NPath (name "new")) (name m) None None true None false false false false false with
  | Ok (rk, _) => match fst (raw_open rk (demo [] [] [] [])) with
                  | Ok f => (mode_attr (rk_must_create rk) f, (f_writable f, f_append f))
                  | Err e => (Err e, (false, false)) end
  | Err e => (Err e, (false, false))
  end.
Example C73_examples :
  map (fun m => fst (mode_of m)) ["w"; "wb+"; "a"; "a+"; "x"; "x+"; "RW"; "RWC"; "W"]%string
  = map (fun m => Ok (name m)) ["wb"; "rb+"; "ab"; "ab+"; "xb"; "xb+"; "rb+"; "xb+"; "wb"]%string.
Proof. vm_compute. reflexivity. Qed.
(** A stream that can only read says "xb", which means writing; one that appends as well. *)
Theorem C73_mode_of_created_refuted :
  ~ (forall rk w f w' m x, raw_open rk w = (Ok f, w') -> mode_attr (rk_must_create rk) f = Ok m -> std_means m x ->
       w_write x = (rk_write rk || rk_append rk) /\ w_append x = rk_append rk).
Proof.
  intros H.
  destruct (parse_mode true (NPath (name "new")) (name "RC") None None true) as [[rk ek]|] eqn:E; [|vm_compute in E; discriminate].
  destruct (raw_open rk (demo [] [] [] [])) as [[f|] w] eqn:O.
  2:{ vm_compute in E. injection E as <- <-. vm_compute in O. discriminate. }
  vm_compute in E. injection E as <- <-. destruct (raw_open_rights _ _ _ _ O) as (C & R & W & A & _).
  destruct (H _ _ _ _ (name "xb") (mkWish false true false true false false false false true) O) as [X _].
  - unfold mode_attr. rewrite C, W. reflexivity.
  - unfold std_means, says; cbn; intuition (try discriminate).
  - discriminate.
Qed.
Example C73_created_append : mode_of "AC" = (Ok (name "xb"), (true, true)).
Proof. vm_compute. reflexivity. Qed.

(** * C74: monkey patching *)

Lemma truncate_erases f w r w' : raw_truncate f (Some 0) w = (r, w') ->
  (forall v i, w_inodes w v = Some i -> w_inodes w' v = Some i \/ w_inodes w' v = Some (mkIno (n_kind i) [] true))
  /\ (forall n o i, r = Ok n -> w_fds w (fd_of f) = Some o -> w_inodes w' (o_uid o) = Some i -> n_data i = []).
Proof.
  unfold raw_truncate, bind, check_seekable, check_writable, raw_size, inner_size, check_closed, bind, ret, raise.
  intros H.
  assert (Id : forall e, (Err e, w) = (r, w') ->
    (forall v i, w_inodes w v = Some i -> w_inodes w' v = Some i \/ w_inodes w' v = Some (mkIno (n_kind i) [] true))
    /\ (forall n o i, r = Ok n -> w_fds w (fd_of f) = Some o -> w_inodes w' (o_uid o) = Some i -> n_data i = [])).
  { intros e [= <- <-]. split; [auto|discriminate]. }
  destruct (f_closed f); [now apply Id in H|]. destruct (f_seekable f); [|now apply Id in H].
  destruct (f_writable f); [|now apply Id in H]. cbn [Z.ltb Z.compare] in H.
  unfold sys_fstat at 1, bind in H. destruct (get_fd (fd_of f) w) as [r1 w1] eqn:E. apply get_fd_cases in E.
  destruct E as [-> [->|(o & i0 & Ho & Hi & ->)]]; [now apply Id in H|]. unfold ret in H. cbn [snd] in H.
  assert (Fin : forall w1 r1 w2, (match sys_fstat (fd_of f) w1 with (Ok a, w') => (Ok (snd a), w') | (Err e, w') => (Err e, w') end) = (r1, w2) -> w2 = w1).
  { intros w1 r1 w2. unfold sys_fstat, bind. destruct (get_fd (fd_of f) w1) as [r2 w3] eqn:E. apply get_fd_cases in E.
    destruct E as [-> [->|(o2 & i2 & _ & _ & ->)]]; intros [= <- <-]; auto. }
  destruct (Z.eqb_spec 0 (Z.of_nat (Datatypes.length (n_data i0)))) as [E0|E0].
  { apply Fin in H. subst. split; [auto|]. intros n o1 i1 _ Ho1 Hi1. assert (o1 = o) as -> by congruence. assert (i1 = i0) as -> by congruence.
    destruct (n_data i0); [reflexivity|cbn in E0; lia]. }
  destruct (Z.ltb_spec 0 (Z.of_nat (Datatypes.length (n_data i0)))); [|lia].
  unfold inner_reduce in H. cbn [Z.ltb Z.compare] in H. unfold sys_ftruncate, bind in H.
  assert (Eg : get_fd (fd_of f) w = (Ok (o, i0), w)) by (unfold get_fd; now rewrite Ho, Hi). rewrite Eg in H.
  destruct (negb (o_wr o) || (0 <? 0)); [now apply Id in H|].
  destruct (n_kind i0) eqn:Ek; try (now apply Id in H).
  rewrite next_io_eq in H.
  destruct (hd IoFull (w_io w)); try (injection H as <- <-; split; [auto|discriminate]; fail).
  all: apply Fin in H; subst w'; split;
    [ intros v i Hv; destruct (uid_dec (o_uid o) v) as [<-|Hn];
      [right; assert (i = i0) as -> by congruence; rewrite Ek; cbn; apply upd_same, P_Raw.uid_eqb_refl
      |left; cbn; rewrite upd_other; [exact Hv|now apply P_Raw.uid_eqb_neq]]
    | intros n1 o1 i1 _ Ho1; assert (o1 = o) as -> by congruence; cbn; rewrite upd_same by apply P_Raw.uid_eqb_refl; now intros [= <-] ].
Qed.

Lemma raw_open_quiet rk w f w' : raw_open rk w = (Ok f, w') ->
  w_kern w' = w_kern w /\ w_reg w' = w_reg w /\ w_env w' = w_env w /\ w_clock w' = w_clock w.
Proof.
  intros H. destruct (rk_handle rk) eqn:Eh; [|destruct (rk_fileno rk) eqn:Ef; [|destruct (rk_path rk) as [|p|z] eqn:Ep]].
  3,5: exfalso; unfold raw_open, raw_init in H; destruct (init_checks rk); [|discriminate];
     cbv zeta in H; unfold inner_create_streams in H; rewrite Eh, Ef, Ep in H; discriminate.
  3:{ apply (raw_open_path rk p) in H; [|repeat split; auto]. inversion H as [| |wx fd o i Hck Ho Hk]; subst. destruct Ho. auto. }
  all: unfold raw_open, raw_init in H; destruct (init_checks rk); [|discriminate];
    cbv zeta in H; unfold inner_create_streams in H; rewrite Eh in H; try rewrite Ef in H;
    match type of H with context[sys_fstat ?z ?ww] => destruct (sys_fstat z ww) as [[[[u k] n]|e] w1] eqn:E1 end; [|discriminate];
    apply fstat_ok in E1; destruct E1 as (-> & _);
    match type of H with context[sys_fstat ?z ?ww] => destruct (sys_fstat z ww) as [[[[u2 k2] n2]|e] w1] eqn:E1 end; [|discriminate];
    apply fstat_ok in E1; destruct E1 as (-> & _);
    destruct k2; [|destruct (wraps rk); discriminate|];
    (destruct (rk_append rk); [|injection H as <- <-; auto]);
    match type of H with context[raw_seek ?g 0 2 ?ww] => destruct (raw_seek g 0 2 ww) as [r3 w3] eqn:E3 end;
    apply raw_seek_within in E3; destruct E3; destruct r3 as [z3|e3];
    [injection H as <- <-; auto| destruct e3; try discriminate; destruct (errno =? ESPIPE); [injection H as <- <-; auto|discriminate]
    |injection H as <- <-; auto| destruct e3; try discriminate; destruct (errno =? ESPIPE); [injection H as <- <-; auto|discriminate]].
Qed.

(** rsopen without locking. *)
Lemma body_unlocked a ek f w r w' : open_body a ek f w = (r, w') -> a_locking a = false ->
  rawf (fd_of f) w w'
  /\ (forall v i, w_inodes w v = Some i -> w_inodes w' v = Some i \/ (ek_truncate ek = true /\ w_inodes w' v = Some (mkIno (n_kind i) [] true)))
  /\ (forall s o i, r = Ok s -> ek_truncate ek = true -> f_seekable f = true -> w_fds w (fd_of f) = Some o ->
       w_inodes w' (o_uid o) = Some i -> n_data i = []).
Proof.
  unfold open_body. intros H El. unfold bind at 1 in H.
  match type of H with (match ?x with _ => _ end) = _ => destruct x as [r0 w0] eqn:E0 end.
  change (match r0 with Ok _ => open_tail a ek f w0 | Err e => (Err e, w0) end = (r, w')) in H.
  assert (rawf (fd_of f) w0 w' /\ w_inodes w' = w_inodes w0) as [T1 T2].
  { destruct r0; [eapply open_tail_world; eauto|]. injection H as <- <-. split; [apply rawf_refl|auto]. }
  rewrite T2. rewrite El in E0.
  destruct (f_seekable f) eqn:Es.
  2:{ injection E0 as <- <-. split; [exact T1|]. split; [auto|]. discriminate. }
  unfold bind at 1 in E0. unfold ret at 1 in E0.
  destruct (ek_truncate ek) eqn:Et.
  2:{ injection E0 as <- <-. split; [exact T1|]. split; [auto|]. discriminate. }
  unfold bind in E0. destruct (raw_truncate f (Some 0) w) as [r1 w1] eqn:Er.
  assert (w0 = w1) as -> by (destruct r1; now injection E0).
  destruct (truncate_erases _ _ _ _ Er) as [A B]. split; [|split].
  - apply rawf_trans with (b := w1); [eapply raw_truncate_within; eauto|exact T1].
  - intros v i Hv. destruct (A v i Hv); auto.
  - intros s o i -> _ _ Ho Hi. destruct r1 as [n|e]; [eauto|]. injection E0 as <-. discriminate.
Qed.

Lemma rsopen_unlocked py_u a rk ek w r w' : a_locking a = false ->
  rsopen_prelude py_u (a_name a) (a_mode a) (a_fileno a) (a_handle a) (a_closefd a)
          (a_opener a) (a_thread_safe a) (a_mutex a) (a_enc a) (a_errs a) (a_nl a) = Ok (rk, ek) ->
  rsopen py_u a w = (r, w') ->
  w_env w' = w_env w
  /\ (forall v i, w_inodes w v = Some i -> w_inodes w' v = Some i \/ (ek_truncate ek = true /\ w_inodes w' v = Some (mkIno (n_kind i) [] true)))
  /\ (forall s, r = Ok s -> w_kern w' = w_kern w /\ w_reg w' = w_reg w
       /\ (ek_truncate ek = true -> f_seekable (st_raw s) = true ->
           exists u i, f_uid (st_raw s) = Some u /\ w_inodes w' u = Some i /\ n_data i = [])).
Proof.
  intros Hl Hp H. unfold rsopen in H. rewrite Hp in H. unfold bind in H.
  destruct (raw_open rk w) as [[f|e] w1] eqn:Eo.
  2:{ injection H as <- <-. destruct (raw_open_files _ _ _ _ Eo) as [E1 E2]. repeat split; auto; discriminate. }
  pose proof (raw_open_files _ _ _ _ Eo) as [V1 I1].
  destruct (open_wrap_cases _ _ _ _ _ _ H) as (r1 & w2 & E1 & C).
  destruct (body_unlocked _ _ _ _ _ _ E1 Hl) as (R & F & Z).
  destruct C as [(<- & -> & _)|(e & r2 & _ & _ & Hc & e' & ->)].
  - split; [rewrite (rf_env _ _ _ R); exact V1|]. split; [auto|]. intros s ->.
    destruct (raw_open_quiet _ _ _ _ Eo) as (Q1 & Q2 & _).
    split; [rewrite (rf_kern _ _ _ R); exact Q1|]. split; [rewrite (rf_reg _ _ _ R); exact Q2|].
    intros Ht Hs. apply open_body_raw in E1. rewrite E1 in *.
    destruct (raw_open_shape _ _ _ _ Eo) as (u & fd & o & i & S1 & S2 & S3 & S4 & S5 & S6 & S7 & S8).
    assert (Ef : fd_of f = fd) by (unfold fd_of; now rewrite S2).
    exists u. pose proof (rf_kind _ _ _ R u) as K. rewrite S7 in K. cbn in K. destruct (w_inodes w2 u) as [i2|] eqn:E2; [|discriminate].
    exists i2. split; [exact S1|]. split; [reflexivity|]. subst u fd. eapply Z; eauto.
  - apply raw_close_kept in Hc. split; [rewrite (kp_env _ _ Hc), (rf_env _ _ _ R); exact V1|]. split; [|discriminate].
    intros v i Hv. rewrite (kp_inodes _ _ Hc). auto.
Qed.

Lemma erase_letter py_u nm m fileno handle closefd op ts mx enc errs nl rk ek :
  rsopen_prelude py_u nm m fileno handle closefd op ts mx enc errs nl = Ok (rk, ek) ->
  ek_truncate ek = true -> In "w"%char m \/ In "E"%char m.
Proof.
  unfold rsopen_prelude. destruct (negb ts && mx); [discriminate|].
  destruct (parse_mode py_u nm m fileno handle closefd) as [[rk0 ek0]|] eqn:P; [|discriminate].
  intros H Ht. assert (T : ek_truncate ek0 = true).
  { destruct (match op with None => _ | _ => _ end) as [rk1|]; [|discriminate].
    destruct (ek_truncate ek0) eqn:T; [reflexivity|]. cbn [andb] in H.
    destruct (ek_binary ek0 && ek_text ek0), (ek_binary ek0 && enc), (ek_binary ek0 && errs), (ek_binary ek0 && nl); try discriminate.
    injection H as _ <-. discriminate Ht. }
  clear H. unfold parse_mode in P. destruct (str_eqb _ _).
  - unfold parse_standard_args in P.
    destruct (_ || has_dup m); [discriminate|]. destruct (chr_mem "U" m && _); [discriminate|]. destruct (negb (_ =? 1)%nat); [discriminate|].
    left. apply chr_mem_In. destruct nm; [| |destruct fileno; [discriminate|]]; injection P as _ <-; cbn in T; destruct (chr_mem "x" m); congruence.
  - destruct (str_eqb _ _); [|discriminate]. unfold parse_advanced_args in P. destruct (_ || has_dup m); [discriminate|].
    right. apply chr_mem_In. injection P as _ <-. cbn in T. destruct (chr_mem "C" m || chr_mem "-" m); congruence.
Qed.

(** The new open() never waits and never locks unless asked to; it changes no file but to
    erase it for a mode that says so. *)
Theorem C74_open_without_lock py_u kw a w r w' : or_default (pk_locking kw) false = false ->
  patched_open py_u [] kw a w = (r, w') ->
  w_env w' = w_env w
  /\ (forall v i, w_inodes w v = Some i ->
        w_inodes w' v = Some i
        \/ ((In "w"%char (a_mode a) \/ In "E"%char (a_mode a)) /\ w_inodes w' v = Some (mkIno (n_kind i) [] true)))
  /\ (forall s, r = Ok s -> w_kern w' = w_kern w /\ w_reg w' = w_reg w).
Proof.
  intros Hl H. cbn [patched_open] in H.
  destruct (rsopen_prelude py_u (a_name (patched_args kw a)) (a_mode (patched_args kw a)) (a_fileno (patched_args kw a))
     (a_handle (patched_args kw a)) (a_closefd (patched_args kw a)) (a_opener (patched_args kw a)) (a_thread_safe (patched_args kw a))
     (a_mutex (patched_args kw a)) (a_enc (patched_args kw a)) (a_errs (patched_args kw a)) (a_nl (patched_args kw a))) as [[rk ek]|e] eqn:P.
  2:{ unfold rsopen in H. rewrite P in H. injection H as <- <-. repeat split; auto; discriminate. }
  destruct (rsopen_unlocked py_u (patched_args kw a) rk ek w r w' Hl P H) as (A & B & C).
  split; [exact A|]. split; [|intros s Hs; destruct (C s Hs) as (C1 & C2 & _); auto].
  intros v i Hv. destruct (B v i Hv) as [X|[X Y]]; auto. right. split; [|exact Y]. exact (erase_letter _ _ _ _ _ _ _ _ _ _ _ _ _ _ P X).
Qed.

(** Asked to lock, and given no timeout, the patched open() tries once: whatever it returns, nothing of what the
    others were about to do has happened meanwhile (rsopen itself waits by default). *)
Theorem C74_open_does_not_wait py_u extra kw a w r w' : pk_timeout kw = None ->
  patched_open py_u extra kw a w = (r, w') -> w_env w' = w_env w.
Proof.
  assert (G : forall a r, a_timeout a = PInt 0 -> rsopen py_u a w = (r, w') -> w_env w' = w_env w).
  { clear. intros a r Ht H. unfold rsopen in H.
    destruct (rsopen_prelude _ _ _ _ _ _ _ _ _ _ _ _) as [[rk ek]|e]; [|now injection H as <- <-].
    unfold bind in H. destruct (raw_open rk w) as [[f|e] w1] eqn:Eo; destruct (raw_open_files _ _ _ _ Eo) as [V1 _];
      [|injection H as <- <-; exact V1].
    destruct (open_wrap_cases _ _ _ _ _ _ H) as (r1 & w2 & E1 & C).
    assert (V2 : w_env w2 = w_env w1).
    { clear -E1 Ht. unfold open_body in E1. unfold bind at 1 in E1.
      match type of E1 with (match ?x with _ => _ end) = _ => destruct x as [r0 w0] eqn:E0 end.
      change (match r0 with Ok _ => open_tail a ek f w0 | Err e => (Err e, w0) end = (r1, w2)) in E1.
      assert (w_env w2 = w_env w0) as ->.
      { destruct r0; [|now injection E1 as <- <-]. destruct (open_tail_world _ _ _ _ _ _ E1) as [R _]. exact (rf_env _ _ _ R). }
      destruct (f_seekable f); [|now injection E0 as <- <-].
      unfold bind at 1 in E0.
      destruct ((if a_locking a then raw_lock_file f (a_timeout a) PNone PNone 0 SNone ;; ret tt else ret tt) w1) as [r3 w3] eqn:E3.
      assert (w_env w3 = w_env w1) as <-.
      { destruct (a_locking a); [|now injection E3 as <- <-]. rewrite Ht in E3. unfold bind in E3.
        destruct (raw_lock_file f (PInt 0) PNone PNone 0 SNone w1) as [r4 w4] eqn:E4.
        apply C20_lock_timeout_zero in E4. destruct E4 as (_ & <- & _). destruct r4; now injection E3 as <- <-. }
      destruct r3; [|now injection E0 as <- <-].
      destruct (ek_truncate ek); [|now injection E0 as <- <-].
      unfold bind in E0. destruct (raw_truncate f (Some 0) w3) as [r4 w4] eqn:E4. apply raw_truncate_within in E4.
      rewrite <- (rf_env _ _ _ E4). destruct r4; now injection E0 as <- <-. }
    destruct C as [(_ & -> & _)|(e & r2 & _ & _ & Hc & _)]; [congruence|].
    apply raw_close_kept in Hc. rewrite (kp_env _ _ Hc). congruence. }
  intros Ht H. destruct extra as [|n [|]]; cbn [patched_open] in H; [|destruct (a_fileno a); [now injection H as <- <-|]|now injection H as <- <-].
  all: eapply G; [|exact H]; cbn [patched_args a_timeout]; now rewrite Ht.
Qed.

(** A file opened for writing from scratch is empty. *)
Theorem C74_open_w_is_empty py_u kw a p w s w' : or_default (pk_locking kw) false = false -> or_default (pk_handle kw) None = None ->
  asks_path a p -> In "w"%char (a_mode a) -> patched_open py_u [] kw a w = (Ok s, w') -> f_seekable (st_raw s) = true ->
  exists u i, w_names w' p = Some u /\ f_uid (st_raw s) = Some u /\ w_inodes w' u = Some i /\ n_data i = [].
Proof.
  intros Hl Hh (A1 & A2 & A3 & A4) Hw H Hs. cbn [patched_open] in H.
  assert (Ap : asks_path (patched_args kw a) p) by (repeat split; auto).
  destruct (C05_rsopen_entries _ _ _ _ _ _ Ap H) as (_ & _ & N). destruct (N s eq_refl) as (N1 & rk & ek & P & _).
  destruct (rsopen_unlocked py_u (patched_args kw a) rk ek w _ w' Hl P H) as (_ & _ & C). destruct (C s eq_refl) as (_ & _ & D).
  destruct D as (u & i & D1 & D2 & D3); auto.
  2:{ exists u, i. rewrite N1. auto. }
  (* the mode erases *)
  clear -P A1 A2 A4 Hw Hh. cbn [patched_args a_name a_mode a_fileno a_handle a_closefd a_opener a_thread_safe a_mutex a_enc a_errs a_nl] in P.
  rewrite A1, A2, A4, Hh in P. unfold rsopen_prelude in P. destruct (negb _ && _); [discriminate|].
  destruct (parse_mode py_u (NPath p) (a_mode a) None None (a_closefd a)) as [[rk0 ek0]|] eqn:Q; [|discriminate].
  assert (T : ek_truncate ek0 = true /\ rk_fileno rk0 = None /\ rk_handle rk0 = None).
  { apply chr_mem_In in Hw. unfold parse_mode in Q. destruct (str_eqb _ _).
    - unfold parse_standard_args in Q. destruct (_ || has_dup _); [discriminate|]. destruct (chr_mem "U" _ && _); [discriminate|].
      destruct (negb (_ =? 1)%nat) eqn:E1; [discriminate|]. rewrite Hw in E1, Q. injection Q as <- <-. cbn.
      destruct (chr_mem "x" (a_mode a)); [|auto]. exfalso. cbn in E1. destruct (chr_mem "r" _ || chr_mem "U" _), (chr_mem "a" _); discriminate.
    - destruct (str_eqb (map chr_upper _) _) eqn:Eu; [|discriminate]. unfold parse_advanced_args in Q.
      destruct (existsb _ (a_mode a)) eqn:Ex; [discriminate|]. exfalso.
      assert (X : existsb (fun c => negb (chr_mem c ADVANCED_OPEN_FLAGS)) (a_mode a) = true).
      { apply existsb_exists. exists "w"%char. split; [now apply chr_mem_In|reflexivity]. }
      congruence. }
  destruct T as (T1 & T2 & T3). rewrite T1, T2, T3 in P. cbn [truthy orb andb] in P.
  destruct (negb (rk_write rk0 || rk_append rk0)); [discriminate|].
  destruct (ek_binary ek0 && ek_text ek0), (ek_binary ek0 && a_enc a), (ek_binary ek0 && a_errs a), (ek_binary ek0 && a_nl a); try discriminate.
  now injection P as _ <-.
Qed.

(** Seven or more positional arguments, as the standard open() takes them (closefd, opener):
    always refused, before anything is done. *)
Theorem C74_seventh_argument_refused py_u x more kw a w : a_opener a = None ->
  (match a_name a with NNone => False | NPath p => p <> [] | NInt _ => True end) ->
  exists e, patched_open py_u (x :: more) kw a w = (Err e, w) /\ (e = EBadValue \/ e = EType).
Proof.
  intros Ho Hn. cbn [patched_open]. destruct more as [|y more]; [|exists EType; auto].
  destruct (a_fileno a) eqn:Ef; [exists EType; auto|]. exists EBadValue. split; [|auto].
  unfold rsopen. destruct (rsopen_prelude _ _ _ _ _ _ _ _ _ _ _ _) as [[rk ek]|e] eqn:P.
  - assert (Rk : (exists p, rk_path rk = NPath p /\ p <> [] /\ rk_fileno rk = Some x) \/ exists z, rk_path rk = NInt z).
    { cbn [patched_args with_fileno a_name a_mode a_fileno a_handle a_closefd a_opener a_thread_safe a_mutex a_enc a_errs a_nl] in P.
      rewrite Ho in P. unfold rsopen_prelude in P. destruct (negb _ && _); [discriminate|].
      destruct (parse_mode _ _ _ _ _ _) as [[rk0 ek0]|] eqn:Q; [|discriminate].
      assert (rk = rk0) as ->.
      { destruct (ek_truncate ek0 && _); [discriminate|].
        destruct (ek_binary ek0 && ek_text ek0), (ek_binary ek0 && a_enc a), (ek_binary ek0 && a_errs a), (ek_binary ek0 && a_nl a); try discriminate.
        now injection P as <- _. }
      clear P. unfold parse_mode in Q. destruct (str_eqb _ _).
      - unfold parse_standard_args in Q. destruct (_ || has_dup _); [discriminate|]. destruct (chr_mem "U" _ && _); [discriminate|].
        destruct (negb (_ =? 1)%nat); [discriminate|]. destruct (a_name a); [destruct Hn| |discriminate]. injection Q as <- _. left. exists p. auto.
      - destruct (str_eqb _ _); [|discriminate]. unfold parse_advanced_args in Q. destruct (_ || has_dup _); [discriminate|].
        injection Q as <- _. cbn. destruct (a_name a) as [|p|z]; [destruct Hn|left; exists p; auto|right; exists z; auto]. }
    unfold bind, raw_open, raw_init, init_checks.
    destruct Rk as [(p & R1 & R2 & R3)|(z & R1)]; rewrite R1; [|now rewrite raw_close_unbuilt].
    rewrite R3. destruct p as [|c p]; [congruence|].
    replace (negb (b2n (path_truthy (NPath (c :: p))) + b2n (is_some (Some x)) + b2n (is_some (rk_handle rk)) =? 1)%nat) with true
      by (destruct (rk_handle rk); reflexivity).
    now rewrite raw_close_unbuilt.
  - assert (e = EBadValue) as ->; [|reflexivity].
    revert P. cbn [patched_args with_fileno a_name a_mode a_fileno a_handle a_closefd a_opener a_thread_safe a_mutex a_enc a_errs a_nl].
    rewrite Ho. unfold rsopen_prelude. destruct (negb _ && _); [congruence|].
    destruct (parse_mode _ _ _ _ _ _) as [[rk0 ek0]|e0] eqn:Q.
    + destruct (ek_truncate ek0 && _); [congruence|].
      destruct (ek_binary ek0 && ek_text ek0), (ek_binary ek0 && a_enc a), (ek_binary ek0 && a_errs a), (ek_binary ek0 && a_nl a); congruence.
    + intros [= <-]. revert Q. unfold parse_mode, parse_standard_args, parse_advanced_args.
      destruct (str_eqb _ _).
      * destruct (_ || has_dup _); [congruence|]. destruct (chr_mem "U" _ && _); [congruence|].
        destruct (negb (_ =? 1)%nat); [congruence|]. destruct (a_name a); congruence.
      * destruct (str_eqb _ _); [|congruence]. destruct (_ || has_dup _); congruence.
Qed.

(** * FileIO *)

Theorem C74_file_io py_u nm m closefd w r w' : file_io py_u nm m closefd w = (r, w') ->
  w_env w' = w_env w
  /\ (forall v i, w_inodes w v = Some i ->
        w_inodes w' v = Some i \/ (In "w"%char m /\ w_inodes w' v = Some (mkIno (n_kind i) [] true)))
  /\ (In "t"%char m -> r = Err EBadValue /\ w' = w)
  /\ (forall f, r = Ok f -> w_kern w' = w_kern w /\ w_reg w' = w_reg w
       /\ (In "w"%char m -> f_seekable f = true ->
           exists u i, f_uid f = Some u /\ w_inodes w' u = Some i /\ n_data i = [])).
Proof.
  unfold file_io. intros H.
  destruct (parse_standard_args py_u nm m None None closefd) as [[rk ek]|e] eqn:P.
  2:{ injection H as <- <-. split; [auto|]. split; [auto|]. split; [|discriminate]. intros _. split; [|auto].
      revert P. unfold parse_standard_args. repeat match goal with |- context[if ?b then _ else _] => destruct b end; try congruence;
      destruct nm; congruence. }
  assert (T : ek_text ek = chr_mem "t" m /\ ek_truncate ek = (chr_mem "w" m)).
  { unfold parse_standard_args in P. destruct (_ || has_dup _); [discriminate|]. destruct (chr_mem "U" _ && _); [discriminate|].
    destruct (negb (_ =? 1)%nat) eqn:E1; [discriminate|]. destruct nm; injection P as _ <-; cbn; (split; [reflexivity|]);
    destruct (chr_mem "x" m); auto; destruct (chr_mem "w" m); auto; cbn in E1; destruct (chr_mem "r" _ || chr_mem "U" _), (chr_mem "a" _); discriminate. }
  destruct T as [T1 T2]. rewrite T1 in H.
  destruct (chr_mem "t" m) eqn:Et.
  { injection H as <- <-. split; [auto|]. split; [auto|]. split; [auto|discriminate]. }
  assert (Nt : In "t"%char m -> r = Err EBadValue /\ w' = w) by (intros X; apply chr_mem_In in X; congruence).
  unfold bind in H. destruct (raw_open rk w) as [[f|e] w1] eqn:Eo.
  2:{ injection H as <- <-. destruct (raw_open_files _ _ _ _ Eo) as [E1 E2]. repeat split; auto; try discriminate; now apply Nt. }
  pose proof (raw_open_files _ _ _ _ Eo) as [V1 I1]. destruct (raw_open_quiet _ _ _ _ Eo) as (Q1 & Q2 & _).
  rewrite T2 in H. destruct (f_seekable f) eqn:Es; cbn [andb] in H.
  2:{ injection H as <- <-. split; [exact V1|]. split; [now auto|]. split; [exact Nt|]. intros f0 [= <-]. split; [exact Q1|]. split; [exact Q2|]. congruence. }
  destruct (chr_mem "w" m) eqn:Ew.
  2:{ injection H as <- <-. split; [exact V1|]. split; [now auto|]. split; [exact Nt|]. intros f0 [= <-]. split; [exact Q1|]. split; [exact Q2|]. intros X. apply chr_mem_In in X. congruence. }
  apply chr_mem_In in Ew.
  destruct (raw_truncate f (Some 0) w1) as [r2 w2] eqn:Et2. destruct (truncate_erases _ _ _ _ Et2) as [A B].
  pose proof (raw_truncate_within _ _ _ _ _ Et2) as R.
  destruct r2 as [n|e]; injection H as <- <-.
  - split; [rewrite (rf_env _ _ _ R); exact V1|]. split; [intros v i Hv; destruct (A v i (I1 v i Hv)); auto|]. split; [exact Nt|].
    intros f0 [= <-]. split; [rewrite (rf_kern _ _ _ R); exact Q1|]. split; [rewrite (rf_reg _ _ _ R); exact Q2|]. intros _ _.
    destruct (raw_open_shape _ _ _ _ Eo) as (u & fd & o & i & S1 & S2 & S3 & S4 & S5 & S6 & S7 & S8).
    assert (Ef : fd_of f = fd) by (unfold fd_of; now rewrite S2).
    exists u. pose proof (rf_kind _ _ _ R u) as K. rewrite S7 in K. cbn in K. destruct (w_inodes w2 u) as [i2|] eqn:E2; [|discriminate].
    exists i2. split; [exact S1|]. split; [reflexivity|]. subst u fd. eapply B; eauto.
  - destruct (raw_close f w2) as [r3 w3] eqn:Ec. cbn [snd]. apply raw_close_kept in Ec.
    split; [rewrite (kp_env _ _ Ec), (rf_env _ _ _ R); exact V1|]. split; [|split; [|discriminate]].
    + intros v i Hv. rewrite (kp_inodes _ _ Ec). destruct (A v i (I1 v i Hv)); auto.
    + intros X. apply chr_mem_In in X. congruence.
Qed.

Example C74_file_io_examples :
  content (snd (file_io true (NPath (name "f")) (name "w") true (demo [1; 2; 3] [] [] []))) (1, 10) = []
  /\ content (snd (file_io true (NPath (name "f")) (name "r+") true (demo [1; 2; 3] [] [] []))) (1, 10) = [1; 2; 3]
  /\ content (snd (file_io true (NPath (name "f")) (name "a") true (demo [1; 2; 3] [] [] []))) (1, 10) = [1; 2; 3]
  /\ fst (file_io true (NPath (name "f")) (name "wt") true (demo [1; 2; 3] [] [] [])) = Err EBadValue.
Proof. vm_compute. auto. Qed.
Definition no_kw : patch_kw := mkPK None None None None None.
Example C74_open_examples :
  outcome (patched_open true [] no_kw (by_name "f" "w" None true) (demo [1; 2; 3] [] [] [])) = (Ok (LWriter, 4096, true), [], [false; true; false], [])
  /\ outcome (patched_open true [] (mkPK None (Some true) None None None) (by_name "f" "r" None true) (demo [1; 2; 3] [] [] []))
     = (Ok (LReader, 4096, true), [1; 2; 3], [false; true; false], [mkSeg 100 (1, 10) true 0 None])
  (* open("f", "w", -1, None, None, None, True) *)
  /\ outcome (patched_open true [1] no_kw (by_name "f" "w" None true) (demo [1; 2; 3] [] [] []))
     = (Err EBadValue, [1; 2; 3], [false; false; false], []).
Proof. vm_compute. auto. Qed.
(** A lock of another process, which would go if one waited: refused at once. *)
Example C74_no_wait :
  let w := demo [1; 2; 3] [] [mkEv 1 (Some []) None None] [mkSeg 200 (1, 10) true 5 (Some 6)] in
  let '(r, w') := patched_open true [] (mkPK None (Some true) None None None) (by_name "f" "w" None true) w in
  (match r with Err (ELocking _) => true | _ => false end, List.length (w_env w'), content w' (1, 10)) = (true, 1%nat, [1; 2; 3]).
Proof. vm_compute. reflexivity. Qed.

(** A descriptor given to FileIO with mode "w": the file is erased (the FileIO it stands for,
    and rsopen, leave it alone). *)
Theorem C74_wrapped_descriptor_refuted :
  ~ (forall py_u d m closefd w r w', file_io py_u (NInt d) m closefd w = (r, w') -> files_untouched w w').
Proof.
  intros H. destruct (file_io true (NInt 4) (name "w") true (with_fd 4)) as [r w] eqn:E.
  assert (C : content w (1, 10) = []) by (change w with (snd (r, w)); rewrite <- E; vm_compute; reflexivity).
  destruct (H _ _ _ _ _ _ _ E (1, 10) (mkIno KReg [1; 2; 3] false) eq_refl) as (i & A & [->|(ev & x & [] & _)]).
  unfold content in C. rewrite A in C. discriminate.
Qed.

Print Assumptions C73_mode_says_rights_partial.
Print Assumptions C73_standard_modes.
Print Assumptions C73_closed.
Print Assumptions C73_mode_of_created_refuted.
Print Assumptions C74_open_without_lock.
Print Assumptions C74_open_does_not_wait.
Print Assumptions C74_open_w_is_empty.
Print Assumptions C74_seventh_argument_refused.
Print Assumptions C74_file_io.
Print Assumptions C74_wrapped_descriptor_refuted.
