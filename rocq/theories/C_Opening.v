(** C92: rsopen, on a file that nothing stands in the way of: exactly the arguments that make sense succeed, and
    the stream and the system are then what was asked for. *)
From Coq Require Import ZArith Ascii String List Bool Lia.
From Verif Require Import M_Base M_Modes M_Registry M_Kernel M_World M_Raw M_Open M_Buffered M_Text
  S_Bytes S_Modes S_Raw S_Locks S_LockFile S_Open S_Args S_Buffered S_Text S_Codecs S_Files S_Helpers S_Demo S_Opening
  P_Bytes P_Modes P_Raw P_Open C_Open C_Raw C_Args C_Text C_Helpers C_Snapshot.
Import ListNotations.
Open Scope Z_scope.

(** * The arguments *)

Lemma says_inj b b' P : says b P -> says b' P -> b = b'.
Proof. unfold says. destruct b, b'; intuition congruence. Qed.
Lemma wish_eq a b : w_read a = w_read b -> w_write a = w_write b -> w_append a = w_append b -> w_must_create a = w_must_create b ->
  w_must_not_create a = w_must_not_create b -> w_sync a = w_sync b -> w_inherit a = w_inherit b -> w_erase a = w_erase b ->
  w_binary a = w_binary b -> a = b.
Proof. destruct a, b. cbn. intros. now subst. Qed.
Lemma std_means_inj m a b : std_means m a -> std_means m b -> a = b.
Proof.
  intros (A1 & A2 & A3 & A4 & A5 & A6 & A7 & A8 & A9) (B1 & B2 & B3 & B4 & B5 & B6 & B7 & B8 & B9).
  apply wish_eq; try (eapply says_inj; eassumption); congruence.
Qed.
Lemma adv_means_inj m a b : adv_means m a -> adv_means m b -> a = b.
Proof.
  intros (A1 & A2 & A3 & A4 & A5 & A6 & A7 & A8 & A9) (B1 & B2 & B3 & B4 & B5 & B6 & B7 & B8 & B9).
  apply wish_eq; try (eapply says_inj; eassumption).
Qed.

(** What the mode string asks for, whatever the other arguments. *)
Definition mode_asks (py_u : bool) (m : list ascii) (wi : wish) : Prop :=
  (std_ok py_u m /\ std_means m wi) \/ (adv_ok m /\ adv_means m wi).

Lemma asks_plain py_u p m wi : good_path p -> mode_asks py_u m wi ->
  exists rk ek, plain_open py_u p m = Ok (rk, ek) /\ wish_of rk ek = wi.
Proof.
  intros Gp [[A B]|[A B]].
  - destruct (proj2 (accepts_iff py_u p m Gp) (or_introl A)) as (rk & ek & E). exists rk, ek. split; [exact E|].
    eapply std_means_inj; [eapply std_meaning; eassumption|exact B].
  - destruct (proj2 (accepts_iff py_u p m Gp) (or_intror A)) as (rk & ek & E). exists rk, ek. split; [exact E|].
    eapply adv_means_inj; [eapply adv_meaning; eassumption|exact B].
Qed.
Lemma plain_asks py_u p m rk ek : good_path p -> plain_open py_u p m = Ok (rk, ek) -> mode_asks py_u m (wish_of rk ek).
Proof.
  intros Gp E. destruct (proj1 (accepts_iff py_u p m Gp) ltac:(eauto)) as [X|X]; [left|right]; split; auto.
  - eapply std_meaning; eauto.
  - eapply adv_meaning; eauto.
Qed.
Lemma asks_write py_u m wi : mode_asks py_u m wi ->
  (w_append wi = true -> w_write wi = true) /\ (w_erase wi = true -> w_write wi = true) /\ w_read wi || w_write wi = true.
Proof.
  intros [[(_ & _ & A & _) (B1 & B2 & B3 & _ & _ & _ & _ & B4 & _)]|[(_ & _ & A & _ & A' & _) (B1 & B2 & B3 & _ & _ & _ & _ & B4 & _)]];
    unfold says in *; rewrite orb_true_iff; tauto.
Qed.

(** The checks on the other arguments, once the mode is accepted. *)
Lemma prelude_iff py_u p m rk ek (ts mx enc errs nl : bool) :
  rsopen_prelude py_u (NPath p) m None None true None true false false false false = Ok (rk, ek) ->
  (rsopen_prelude py_u (NPath p) m None None true None ts mx enc errs nl = Ok (rk, ek)
   <-> (mx = true -> ts = true) /\ (ek_binary ek = true -> enc = false /\ errs = false /\ nl = false)).
Proof.
  unfold rsopen_prelude. cbn [negb andb].
  destruct (parse_mode py_u (NPath p) m None None true) as [[rk0 ek0]|e]; [|discriminate].
  destruct (ek_truncate ek0 && negb (rk_write rk0 || rk_append rk0)); [discriminate|].
  destruct (ek_binary ek0 && ek_text ek0); [discriminate|]. rewrite !andb_false_r. intros H. rewrite H. injection H as -> <-. cbn [ek_binary].
  destruct ts, mx; cbn [negb andb]; destruct (ek_binary ek0); cbn [andb]; destruct enc, errs, nl; (split; [intros X; try discriminate X; split; auto|intros [X Y]; try (specialize (X eq_refl)); try (specialize (Y eq_refl); decompose [and] Y); auto; discriminate]).
Qed.

(** * What is looked at once the file is open *)
Lemma tail_text a ek f w s w' : open_tail a ek f w = (Ok s, w') -> text_fine a ek.
Proof.
  intros H Bi. unfold open_tail in H. rewrite Bi in H. split.
  - intros E. rewrite E in H. cbv zeta in H. discriminate.
  - destruct (a_text_error a) as [e|]; [exfalso|reflexivity]. cbv zeta in H. unfold bind in H.
    repeat match type of H with
    | (match ?x with (_, _) => _ end) = _ => destruct x as [[?|?] ?]; try discriminate H
    | (if ?x then _ else _) _ = _ => destruct x; try discriminate H
    end.
Qed.
Lemma body_needs a ek f w s w' : f_seekable f = true -> open_body a ek f w = (Ok s, w') ->
  text_fine a ek /\ (a_locking a = true -> ~ wrong_nonneg (a_timeout a)).
Proof.
  intros Sk H. unfold open_body in H. rewrite Sk in H. unfold bind at 1 in H.
  match type of H with (match ?x with _ => _ end) = _ => destruct x as [r0 w0] eqn:E0 end.
  change (match r0 with Ok _ => open_tail a ek f w0 | Err e => (Err e, w0) end = (Ok s, w')) in H.
  destruct r0 as [[]|e]; [|discriminate]. split; [eapply tail_text; eauto|].
  intros El. rewrite El in E0. unfold bind at 1 in E0. unfold bind at 1 in E0.
  destruct (raw_lock_file f (a_timeout a) PNone PNone 0 SNone w) as [[x|e] w1] eqn:E; [|discriminate].
  unfold raw_lock_file, bind in E. destruct (check_seekable f w) as [[[]|e] w2]; [|discriminate].
  intros [X|(z & X & Y)]; rewrite X in E; cbn [bad_nonneg] in E; [discriminate|]. apply Z.ltb_lt in Y. rewrite Y in E. discriminate.
Qed.

(** * C92 *)

(** Arguments that make sense: the file is opened as asked. *)
Theorem C92_opens py_u a p w wi c : asks_path a p -> coherent py_u a wi ->
  in_order w p (w_must_create wi) (w_must_not_create wi) -> had_content w p c ->
  exists s w' fd o, rsopen py_u a w = (Ok s, w') /\ opened_as wi a p c w s w' fd o.
Proof.
  intros Ha [Cm Cc Cx Cb Ct Ti] Or Hc. pose proof (or_path _ _ _ _ Or) as Gp.
  destruct (asks_plain py_u p (a_mode a) wi Gp Cm) as (rk & ek & Pl & Wi).
  destruct (asks_write _ _ _ Cm) as (Wa & We & Wr).
  assert (Ep : rsopen_prelude py_u (NPath p) (a_mode a) None None true None true false false false false = Ok (rk, ek)).
  { unfold plain_open in Pl. destruct (rsopen_prelude _ _ _ _ _ _ _ _ _ _ _ _) as [[rk0 ek0]|e]; [|discriminate].
    destruct (init_checks rk0); [|discriminate]. congruence. }
  assert (Ep' : rsopen_prelude py_u (a_name a) (a_mode a) (a_fileno a) (a_handle a) (a_closefd a)
      (a_opener a) (a_thread_safe a) (a_mutex a) (a_enc a) (a_errs a) (a_nl a) = Ok (rk, ek)).
  { destruct Ha as (-> & -> & -> & ->). rewrite Cc. apply (proj2 (prelude_iff _ _ _ _ _ _ _ _ _ _ Ep)). split; [exact Cx|].
    intros X. apply Cb. now rewrite <- Wi. }
  rewrite <- Wi in Or, Ct, Wa, We, Wr. cbn [wish_of w_must_create w_must_not_create w_binary w_append w_write w_erase w_read] in *.
  assert (Wo : rk_write rk || rk_append rk = rk_write rk) by (destruct (rk_write rk), (rk_append rk); auto; now specialize (Wa eq_refl)).
  destruct (open_started py_u a p w rk ek Ha Cc Ep' Or) as (s & w' & o & i & E & S).
  { now rewrite Wo. }
  { exact Ct. }
  { now rewrite Wo. }
  { exact Ti. }
  exists s, w', (fd_of (st_raw s)), o. split; [exact E|].
  destruct (C54_opened_descriptor _ _ _ _ _ _ Ha E) as (fd & o' & F1 & F2 & F3 & F4 & _ & wi' & G & Ms & Ma).
  pose proof (C05_rsopen_entries _ _ _ _ _ _ Ha E) as (_ & Nk & _).
  destruct S as [U (Fd & Nz & Cl) (R1 & R2 & R3 & R4 & R5 & R6) (S1 & S2) Pl' L D Ne (T0 & P0) Was Fds Pid Na Nas Fi Mi (K1 & K2) Pe Ot Ke La (Tx & Sf)].
  rewrite Wo in *. pose proof (lv_fd _ _ _ _ L) as Lf.
  assert (fd = fd_of (st_raw s)) as -> by congruence. assert (o' = o) as -> by congruence.
  assert (wi' = wi) as -> by (destruct Cm as [[X Y]|[X Y]]; [exact (std_means_inj _ _ _ (Ms X) Y)|exact (adv_means_inj _ _ _ (Ma X) Y)]).
  subst wi. cbn [wish_of w_read w_write w_append w_erase w_binary] in *.
  constructor; cbn [wish_of w_read w_write w_append w_erase w_binary]; auto.
  - repeat split; auto. apply L.
  - split; [exact Na|]. intros X. rewrite <- (Nk X). exact Na.
  - destruct D as (c' & D1 & D2). assert (c' = c) as ->.
    { destruct D1 as [(v & j & A1 & A2 & _ & A3)|(A1 & ->)], Hc as [(v' & j' & B1 & B2 & _ & B3)|(B1 & ->)]; congruence. }
    exists (o_uid o), i. repeat split; auto; apply L.
  - destruct (rk_append rk) eqn:Ea; [now apply Pl'|now apply R6].
  - destruct La as [(-> & ->)|(_ & X & ->)]; [reflexivity|]. destruct (a_buffering a) as [[|z|z]|]; try reflexivity. congruence.
  - destruct (a_locking a); [|now apply K1]. rewrite R2 in K2. now apply K2.
  - intros v Hv. unfold table. now rewrite Ot.
Qed.

Lemma in_order_creation w p wi : in_order w p false false -> creation_fits wi w p ->
  in_order w p (w_must_create wi) (w_must_not_create wi).
Proof. intros [] [A B]. constructor; auto. Qed.

(** Exactly these arguments are accepted: they make sense, and the file is there or not as the mode wants it. *)
Theorem C92_opens_iff py_u a p w : asks_path a p -> in_order w p false false ->
  ((exists s w', rsopen py_u a w = (Ok s, w')) <-> exists wi, coherent py_u a wi /\ creation_fits wi w p).
Proof.
  intros Ha Or. split.
  - intros (s & w' & E). pose proof E as E0. unfold rsopen in E.
    destruct (rsopen_prelude _ _ _ _ _ _ _ _ _ _ _ _) as [[rk ek]|e] eqn:Ep; [|discriminate].
    destruct (prelude_fields _ _ _ _ Ep) as [F _]. destruct (F p Ha) as [Hp Hc]. clear F.
    unfold bind in E. destruct (raw_open rk w) as [[f|e] w1] eqn:Eo; [|discriminate].
    pose proof (raw_open_path _ _ _ _ _ Hp Eo) as OP. inversion OP as [ | |wx fd o i Hck Hop Hk]; subst.
    destruct (checks_path _ _ Hck Hp) as [Gp Cf]. rewrite Cf in Hc.
    pose proof Ha as (A1 & A2 & A3 & A4). pose proof Ep as Ep'. rewrite A1, A2, A3, A4, <- Hc in Ep. pose proof Ep as Ep2. apply prelude_plain in Ep.
    pose proof (proj1 (prelude_iff _ _ _ _ _ _ _ _ _ _ Ep) Ep2) as [Mx Bn].
    assert (Pl : plain_open py_u p (a_mode a) = Ok (rk, ek)) by (unfold plain_open; now rewrite Ep, Hck).
    assert (Kr : n_kind i = KReg).
    { destruct (op_how _ _ _ _ _ _ _ Hop) as [(A & B & _)|(_ & _ & _ & ->)]; [|reflexivity].
      destruct (or_file _ _ _ _ Or _ A) as (i' & I1 & I2). congruence. }
    unfold open_wrap in E. destruct (open_body a ek (stream_of rk w fd o i) w1) as [[s'|e] w2] eqn:Eb.
    2:{ destruct (raw_close _ w2) as [[[]|e'] w3]; destruct e; discriminate. }
    assert (Sk : f_seekable (stream_of rk w fd o i) = true) by (unfold stream_of; cbn [f_seekable]; now rewrite Kr).
    destruct (body_needs _ _ _ _ _ _ Sk Eb) as [Tx Ti].
    exists (wish_of rk ek). split.
    + constructor; auto. apply (plain_asks py_u p _ _ _ Gp Pl).
    + pose proof (C05_rsopen_entries _ _ _ _ _ _ Ha E0) as (_ & _ & N). destruct (N s eq_refl) as (_ & rk' & ek' & X & Y & Z).
      rewrite Ep' in X. injection X as <- <-. split; [exact Y|exact Z].
  - intros (wi & Co & Cr). pose proof (in_order_creation _ _ _ Or Cr) as Or'.
    assert (exists c, had_content w p c) as (c & Hc).
    { destruct (w_names w p) as [u|] eqn:En; [|exists []; right; auto].
      destruct (or_file _ _ _ _ Or _ En) as (i & I1 & I2). exists (n_data i). left. exists u, i. auto. }
    destruct (C92_opens _ _ _ _ _ _ Ha Co Or' Hc) as (s & w' & _ & _ & E & _). eauto.
Qed.

(** The creation flags do not fit the directory: the error says which way, and nothing happened. *)
Theorem C92_creation_refused py_u a p w wi : asks_path a p -> coherent py_u a wi -> in_order w p false false ->
  ~ creation_fits wi w p ->
  exists io, rsopen py_u a w = (Err (EOS (if w_must_create wi then EEXIST else ENOENT)), set_io w io).
Proof.
  intros Ha [Cm Cc Cx Cb Ct Ti] Or Nf. pose proof (or_path _ _ _ _ Or) as Gp.
  destruct (asks_plain py_u p (a_mode a) wi Gp Cm) as (rk & ek & Pl & Wi).
  unfold plain_open in Pl. destruct (rsopen_prelude _ _ _ _ _ _ _ _ _ _ _ _) as [[rk0 ek0]|e] eqn:Ep; [|discriminate].
  destruct (init_checks rk0) as [[]|] eqn:Hck; [|discriminate]. injection Pl as -> ->.
  assert (Ep' : rsopen_prelude py_u (a_name a) (a_mode a) (a_fileno a) (a_handle a) (a_closefd a)
      (a_opener a) (a_thread_safe a) (a_mutex a) (a_enc a) (a_errs a) (a_nl a) = Ok (rk, ek)).
  { pose proof Ha as (-> & -> & -> & ->). rewrite Cc. apply (proj2 (prelude_iff _ _ _ _ _ _ _ _ _ _ Ep)). split; [exact Cx|].
    intros X. apply Cb. now rewrite <- Wi. }
  destruct (prelude_fields _ _ _ _ Ep') as [F _]. destruct (F p Ha) as [(Hp & Hf & Hh) Hcl]. clear F.
  exists (tl (w_io w)). unfold rsopen. rewrite Ep'. unfold bind at 1.
  destruct (or_number _ _ _ _ Or) as (fd & fds & N1 & N2 & _).
  assert (Es : sys_open p (unix_open_flags rk) w = (Err (EOS (if w_must_create wi then EEXIST else ENOENT)), set_io w (tl (w_io w)))).
  { unfold sys_open, bind. rewrite next_io_eq.
    assert (Hn : forall n, hd IoFull (w_io w) <> IoErr n).
    { intros n X. apply (or_calls _ _ _ _ Or n). destruct (w_io w); [discriminate|]. left. exact X. }
    assert (Mm : rk_must_create rk = true -> rk_must_not_create rk = true -> False).
    { intros X Y. unfold init_checks in Hck. cbv zeta in Hck. rewrite Hp in Hck.
      match type of Hck with (if negb ?x then _ else _) = _ => destruct x; [|discriminate Hck] end. cbn [negb] in Hck.
      destruct (negb (rk_read rk) && negb (rk_write rk || rk_append rk)); [discriminate Hck|]. rewrite X, Y in Hck. discriminate Hck. }
    unfold creation_fits in Nf. rewrite <- Wi in *. cbn [wish_of w_must_create w_must_not_create] in *.
    destruct (hd IoFull (w_io w)) as [|n|e]; [| |now destruct (Hn e)]; cbn [w_newfd w_fds w_names w_newino w_inodes set_io]; rewrite N1, N2.
    all: destruct (w_names w p) as [u|] eqn:En.
    1, 3: destruct (or_file _ _ _ _ Or _ En) as (i & I1 & _); rewrite I1;
        assert (rk_must_create rk = true) as Mc by (destruct (rk_must_create rk); [reflexivity|]; exfalso; apply Nf; split; [discriminate|intros _ X; discriminate X]);
        assert (of_creat (unix_open_flags rk) = true /\ of_excl (unix_open_flags rk) = true) as [-> ->] by (unfold unix_open_flags; rewrite Mc; destruct (rk_must_not_create rk); [now destruct (Mm Mc eq_refl)|]; destruct (rk_read rk), (rk_write rk || rk_append rk); auto);
        rewrite Mc; reflexivity.
    all: assert (rk_must_not_create rk = true) as Mn by (destruct (rk_must_not_create rk); [reflexivity|]; exfalso; apply Nf; split; [auto|discriminate]);
        assert (rk_must_create rk = false) as Mc by (destruct (rk_must_create rk); [now destruct (Mm eq_refl Mn)|reflexivity]);
        assert (of_creat (unix_open_flags rk) = false) as -> by (unfold unix_open_flags; rewrite Mn; destruct (rk_read rk), (rk_write rk || rk_append rk); auto);
        rewrite Mc; reflexivity. }
  unfold raw_open, raw_init. rewrite Hck. unfold inner_create_streams. rewrite Hh, Hf, Hp, Es.
  rewrite raw_close_unbuilt by reflexivity. reflexivity.
Qed.

(** * Appending to a file that is erased *)

(** A stream that appends stands at the end of the file: so it is, if the mode does not erase. *)
Corollary C92_append_at_end_partial py_u a p w wi c : asks_path a p -> coherent py_u a wi ->
  in_order w p (w_must_create wi) (w_must_not_create wi) -> had_content w p c -> w_append wi = true -> w_erase wi = false ->
  exists s w' fd o, rsopen py_u a w = (Ok s, w') /\ f_fd (st_raw s) = Some fd /\ w_fds w' fd = Some o /\ o_pos o = len c /\ has_content w' p c.
Proof.
  intros Ha Co Or Hc A E. destruct (C92_opens _ _ _ _ _ _ Ha Co Or Hc) as (s & w' & fd & o & R & Op). exists s, w', fd, o.
  split; [exact R|]. split; [apply Op|]. split; [apply Op|]. pose proof (oa_place _ _ _ _ _ _ _ _ _ Op) as X. pose proof (oa_content _ _ _ _ _ _ _ _ _ Op) as Y.
  rewrite A in X. rewrite E in Y. auto.
Qed.

(** Mode "AE" looks for the end before it erases: the position is past the end of the file. *)
Definition append_at_end : Prop := forall py_u a p w s w' fd o c, asks_path a p -> in_order w p false false ->
  rsopen py_u a w = (Ok s, w') -> f_fd (st_raw s) = Some fd -> w_fds w' fd = Some o -> o_app o = true ->
  has_content w' p c -> o_pos o = len c.
Definition was_123 : world := demo [1; 2; 3] [] [] [].
Lemma demo_in_order p data : p = name "f" \/ p = name "g" -> in_order (demo data [] [] []) p false false.
Proof.
  intros Hp. constructor; try discriminate.
  - intros e [].
  - eexists _, _. split; [reflexivity|]. split; [reflexivity|discriminate].
  - eexists _, _. split; reflexivity.
  - destruct Hp as [-> | ->]; (split; [discriminate|]); intros X; cbn in X; destruct X as [X|[]]; discriminate X.
  - destruct Hp as [-> | ->]; intros u E; vm_compute in E; [injection E as <-|discriminate E]. eexists. split; reflexivity.
  - intros u _. split; [reflexivity|]. split; [reflexivity|]. intros s [].
Qed.
Theorem C92_append_at_end_refuted : ~ append_at_end.
Proof.
  intros H. destruct (rsopen true (by_name "f" "AEB" None false) was_123) as [r w'] eqn:E.
  assert (X : (fun r w' => match r with
              | Ok s => (f_fd (st_raw s), w_names w' (name "f"), w_inodes w' (1, 10), match w_fds w' 3 with Some o => (o_app o, o_pos o) | None => (false, 0) end)
              | Err _ => (None, None, None, (false, 0)) end) (fst (r, w')) (snd (r, w')) = (Some 3, Some (1, 10), Some (mkIno KReg [] true), (true, 3))).
  { rewrite <- E. vm_compute. reflexivity. }
  cbn [fst snd] in X.
  destruct r as [s|e]; [|discriminate]. injection X as X1 X2 X3 X4. destruct (w_fds w' 3) as [o|] eqn:Eo; [|discriminate]. injection X4 as X4 X5.
  specialize (H _ _ _ _ _ _ _ _ [] (asked "f" "AEB" None false) (demo_in_order _ _ (or_introl eq_refl)) E X1 Eo X4).
  rewrite X5 in H. discriminate H. exists (1, 10), (mkIno KReg [] true). auto.
Qed.

(** The bytes of the file after the first write and flush of a text stream just opened. *)
Definition first_text (cd : codec) (st : stream) (s : list Z) (w : world) : res (list Z) :=
  let c := mkTC cd NlNone [10] false (match st_layer st with LRandom => BRandom | LReader => BReader | _ => BWriter end) in
  match (t_write c s ;; t_flush c) (text_fresh (st_raw st) (st_bufsize st) w) with
  | (Ok _, t) => Ok (content (b_w (t_b t)) (uid_of (st_raw st)))
  | (Err e, _) => Err e
  end.
(** The first text of an empty file begins with the byte order mark of the encoding: false with "AE", the text layer looks
    at the position, which is not 0. *)
Definition mark_comes_first : Prop := forall py_u a p w st w' s bytes, asks_path a p -> in_order w p false false ->
  rsopen py_u a w = (Ok st, w') -> st_text st = true -> content w' (uid_of (st_raw st)) = [] ->
  first_text utf8_sig st s w' = Ok bytes -> exists rest, bytes = bom ++ rest.
Theorem C92_mark_comes_first_refuted : ~ mark_comes_first.
Proof.
  intros H. destruct (rsopen true (by_name "f" "AET" None false) was_123) as [r w'] eqn:E.
  assert (X : (fun r w' => match r with
              | Ok st => (st_text st, content w' (uid_of (st_raw st)), first_text utf8_sig st [65] w')
              | Err e => (false, [], Err e) end) (fst (r, w')) (snd (r, w')) = (true, [], Ok [65])).
  { rewrite <- E. vm_compute. reflexivity. }
  cbn [fst snd] in X.
  destruct r as [st|e]; [|discriminate]. injection X as X1 X2 X3.
  destruct (H _ _ _ _ _ _ _ _ (asked "f" "AET" None false) (demo_in_order _ _ (or_introl eq_refl)) E X1 X2 X3) as (rest & X). discriminate X.
Qed.

(** * Examples *)
Definition wish_r : wish := mkWish true false false false true false false false true.
Definition wish_a : wish := mkWish true true true false false false false false false.
Example C92_example :
  coherent true (by_name "f" "rb" None true) wish_r /\ coherent true (by_name "f" "a+" (Some 1) false) wish_a
  /\ in_order was_123 (name "f") false false /\ had_content was_123 (name "f") [1; 2; 3]
  /\ creation_fits wish_r was_123 (name "f") /\ ~ creation_fits wish_r was_123 (name "g")
  /\ outcome (rsopen true (by_name "f" "rb" None true) was_123) = (Ok (LReader, 4096, false), [1; 2; 3], [false; true; false], [mkSeg 100 (1, 10) true 0 None])
  /\ outcome (rsopen true (by_name "g" "rb" None true) was_123) = (Err (EOS ENOENT), [1; 2; 3], [false; false; false], []).
Proof.
  split.
  { constructor; try (intros; discriminate); auto.
    - left. split; [|unfold std_means, says; cbn; intuition discriminate]. unfold std_ok. repeat split; try (cbn; intuition discriminate).
      repeat constructor; cbn; intuition discriminate.
    - intros _ [X|(z & X & Y)]; [discriminate|]. injection X as <-. lia. }
  split.
  { constructor; try (intros; discriminate); auto.
    - left. split; [|unfold std_means, says; cbn; intuition discriminate]. unfold std_ok. repeat split; try (cbn; intuition discriminate).
      repeat constructor; cbn; intuition discriminate.
    - intros _. split; [discriminate|reflexivity]. }
  split; [apply demo_in_order; now left|].
  split. { left. exists (1, 10), (mkIno KReg [1; 2; 3] false). vm_compute. auto. }
  split. { split; vm_compute; discriminate. }
  split. { intros [_ X]. apply X; reflexivity. }
  split; vm_compute; reflexivity.
Qed.
Example C92_example_mark :
  let go m w := match rsopen true (by_name "f" m None false) w with (Ok st, w') => first_text utf8_sig st [65] w' | (Err e, _) => Err e end in
  go "w"%string was_123 = Ok (bom ++ [65]) /\ go "a"%string (demo [] [] [] []) = Ok (bom ++ [65]) /\ go "a"%string was_123 = Ok [1; 2; 3; 65]
  /\ go "WE"%string was_123 = Ok (bom ++ [65]) /\ go "AE"%string was_123 = Ok [65].
Proof. vm_compute. auto. Qed.

Print Assumptions C92_opens.
Print Assumptions C92_opens_iff.
Print Assumptions C92_creation_refused.
Print Assumptions C92_append_at_end_partial.
Print Assumptions C92_append_at_end_refuted.
Print Assumptions C92_mark_comes_first_refuted.
