(** C90: when nothing stands in the way, read_from_file, write_to_file and append_to_file succeed,
    and leave nothing behind. *)
From Coq Require Import ZArith Ascii String List Bool Lia.
From Verif Require Import M_Base M_Modes M_Registry M_Kernel M_World M_Raw M_Open M_Buffered M_Files C_Buffered
  S_Bytes S_Raw S_Locks S_LockFile S_Open S_Buffered S_Sync S_Files S_Helpers S_Demo
  P_Bytes P_Modes P_Registry P_Raw P_Close P_Frame P_LockFile P_Lock C_Lock P_Open C_Open C_Raw P_Buffered P_BufOps P_BufRun P_LockEnv P_Files C_Sync C_Files.
Import ListNotations.
Open Scope Z_scope.

(** * A lock that is available is recorded, and nothing else happens. *)
Lemma lock_available_exact f w length offset whence shared off timeout :
  proper_call f w length offset whence shared off -> ~ wrong_nonneg timeout ->
  ~ busy w (uid_of f) (fd_of f) off (parg_opt length) shared ->
  exists w', raw_lock_file f timeout length offset whence (SBool shared) w = (Ok (parg_opt length, off), w')
    /\ table w' (uid_of f) = table w (uid_of f) ++ [mkLock (fd_of f) shared off (range_end off (parg_opt length))]
    /\ (forall v, w_inodes w' v = w_inodes w v).
Proof.
  intros P Ht Hn.
  assert (P' : proper_call f (set_env w []) length offset whence shared off).
  { destruct P as [? ? ? ? ? ? ? ? [] ? ?]; constructor; auto; constructor; auto. }
  destruct (C20_lock_available f (set_env w []) length offset whence shared off timeout P' Ht Hn) as (w1 & E).
  destruct (C20_lock_result_prefix _ _ _ _ _ _ w [] (w_env w) _ _ E) as (w2 & E2 & Eq); [discriminate|].
  cbn [app] in E2. assert (set_env w (w_env w) = w) as Hid by (destruct w; reflexivity). rewrite Hid in E2.
  exists w2. split; [exact E2|].
  assert (T : table w2 (uid_of f) = table w1 (uid_of f)).
  { change (table (set_env w2 []) (uid_of f) = table (set_env w1 []) (uid_of f)). now rewrite Eq. }
  assert (I : w_inodes w2 = w_inodes w1).
  { change (w_inodes (set_env w2 []) = w_inodes (set_env w1 [])). now rewrite Eq. }
  rewrite T, I. split.
  - rewrite lock_file_args in E. rewrite (pc_open _ _ _ _ _ _ _ P), (pc_seekable _ _ _ _ _ _ _ P) in E. cbn [negb] in E.
    destruct (args_ok f timeout length offset whence (SBool shared)) eqn:Ea; [|discriminate]. cbn [negb] in E.
    destruct (share_ok f _); [|discriminate]. cbn [negb share_of] in E.
    destruct (abs_offset f offset whence (set_env w [])) as [[o1|e1] w3] eqn:Eo; [|discriminate].
    pose proof (abs_offset_pres _ _ _ _ _ _ Eo) as [F1 F2].
    set (q := mkReq _ _ _ _ _) in E.
    assert (V : w_env w3 = []) by (rewrite F2; reflexivity). rewrite V in E.
    pose proof (loop_general f q (args_ok_len _ _ _ _ _ _ Ea) true [] w3 ltac:(intros _; constructor)) as O.
    destruct (lock_loop f q [] PhReg w3) as [[[]|e] w4] eqn:El; [|discriminate]. injection E as E <-. subst o1.
    inversion O as [w5 K L Hoff HK| | |]; subst.
    destruct (li_quiet _ _ _ _ _ _ L eq_refl) as [_ Q].
    unfold table at 1. rewrite registry_of_id by apply (li_rpid _ _ _ _ _ _ L).
    cbn [w_reg set_kern]. change (locks_of (w_reg w5) (uid_of f) = table w (uid_of f) ++ [mkLock (fd_of f) shared off (range_end off (parg_opt length))]).
    rewrite Q. rewrite F2. reflexivity.
  - intros v. destruct (lock_file_events _ _ _ _ _ _ _ _ _ E) as (past & Ev & X). cbn [w_env set_env] in Ev.
    destruct past; [|discriminate]. rewrite X. cbn [w_inodes set_env].
    destruct (uid_eqb (uid_of f) v); [|reflexivity]. destruct (w_inodes w v) as [[]|]; reflexivity.
Qed.

(** * Opening *)

(** A stream on the target, by its descriptor alone. *)
Record started (rk : raw_kwargs) (a : openargs) (ek : ext_kwargs) (p : list ascii) (w : world) (s : stream) (w' : world)
    (o : ofd) (i : inode) : Prop := mkStarted {
  sd_uid : f_uid (st_raw s) = Some (o_uid o);
  sd_fd : f_fd (st_raw s) = Some (fd_of (st_raw s)) /\ fd_of (st_raw s) <> 0 /\ f_closefd (st_raw s) = true;
  sd_rights : f_readable (st_raw s) = rk_read rk /\ f_writable (st_raw s) = (rk_write rk || rk_append rk)
              /\ (rk_read rk = true -> o_rd o = true) /\ (rk_write rk || rk_append rk = true -> o_wr o = true)
              /\ o_app o = rk_append rk /\ (rk_append rk = false -> o_pos o = 0);
  sd_flags : o_sync o = rk_synchronized rk /\ o_inh o = rk_inheritable rk;
  sd_place : forall c, had_content w p c -> rk_append rk = true -> o_pos o = len c;
  sd_live : live (st_raw s) w' o i;
  sd_data : exists c, had_content w p c /\ n_data i = if ek_truncate ek then [] else c;
  sd_calls : no_err w';
  sd_free : table w (o_uid o) = [] /\ pending w (o_uid o) = [];
  sd_was : w_fds w (fd_of (st_raw s)) = None;
  sd_fds : forall d, d <> fd_of (st_raw s) -> w_fds w' d = w_fds w d;
  sd_pid : w_pid w' = w_pid w;
  sd_name : w_names w' p = Some (o_uid o);
  sd_names : forall q, q <> p -> w_names w' q = w_names w q;
  sd_files : forall v, v <> o_uid o -> w_inodes w' v = w_inodes w v;
  sd_mine : forall lk, In lk (table w' (o_uid o)) -> lk_handle lk = fd_of (st_raw s) /\ lk_start lk = 0 /\ lk_end lk = None;
  sd_locked : (a_locking a = false -> table w' (o_uid o) = [])
              /\ (a_locking a = true -> table w' (o_uid o) = [mkLock (fd_of (st_raw s)) (negb (f_writable (st_raw s))) 0 None]
                    /\ forall b, 0 <= b -> process_holds w' (o_uid o) (negb (f_writable (st_raw s))) b);
  sd_pending : pending w' (o_uid o) = [];
  sd_others : forall v, v <> o_uid o -> r_map (registry_of w') v = r_map (registry_of w) v;
  sd_kernel : forall v sh b, v <> o_uid o -> (process_holds w' v sh b <-> process_holds w v sh b);
  sd_layer : (st_layer s = LRaw /\ a_buffering a = Some 0)
      \/ (0 < st_bufsize s /\ a_buffering a <> Some 0
          /\ st_layer s = if rk_read rk && (rk_write rk || rk_append rk) then LRandom
                          else if rk_write rk || rk_append rk then LWriter else LReader);
  sd_wraps : st_text s = negb (ek_binary ek) /\ st_safe s = a_thread_safe a }.

(** In text mode there must be a buffer, and encoding, errors and newline must be acceptable. *)
Definition text_fine (a : openargs) (ek : ext_kwargs) : Prop :=
  ek_binary ek = false -> a_buffering a <> Some 0 /\ a_text_error a = None.

Lemma open_tail_fine a ek f w o i : live f w o i -> fd_of f <> 0 -> text_fine a ek -> f_readable f || f_writable f = true ->
  exists s w', open_tail a ek f w = (Ok s, w') /\ live f w' o i /\ frame (fd_of f) (o_uid o) w w'
    /\ st_text s = negb (ek_binary ek) /\ st_safe s = a_thread_safe a.
Proof.
  intros L Nz Bi Rw. unfold open_tail. set (b0 := match a_buffering a with None => -1 | Some b => b end). cbv zeta. unfold bind at 1.
  assert (exists line, (if b0 =? 1 then ret true else if b0 <? 0 then raw_isatty f else ret false) w = (Ok line, w)
    /\ (0 <= b0 \/ line = false) /\ (line = true -> b0 = 1)) as (line & E & _ & Hl).
  { destruct (Z.eqb_spec b0 1); [exists true; repeat split; try lia; discriminate|].
    destruct (Z.ltb_spec b0 0); [|exists false; repeat split; auto; discriminate].
    exists false. unfold raw_isatty, bind, ret. rewrite (check_closed_live _ _ _ _ L). apply Z.eqb_neq in Nz. rewrite Nz. repeat split; auto. discriminate. }
  rewrite E. unfold bind at 1.
  assert (exists b, buffer_size f (if line then -1 else b0) w = (Ok b, w) /\ 0 <= b /\ (b = 0 -> b0 = 0)) as (b & Eb & Hb & Hb0).
  { unfold buffer_size. destruct (Z.ltb_spec (if line then -1 else b0) 0) as [X|X].
    - apply Z.eqb_neq in Nz. rewrite Nz, (lv_fd _ _ _ _ L). eexists. split; [reflexivity|].
      destruct (Z.ltb_spec 1 (w_blk w)); [lia|unfold DEFAULT_BUFFER_SIZE; lia].
    - eexists. split; [reflexivity|]. split; [exact X|]. destruct line; lia. }
  rewrite Eb. destruct (Z.ltb_spec b 0); [lia|].
  destruct (Z.eqb_spec b 0) as [Z0|Z0].
  { assert (ek_binary ek = true) as Eb2.
    { destruct (ek_binary ek) eqn:X; [reflexivity|]. destruct (Bi X) as [Y _]. specialize (Hb0 Z0). unfold b0 in Hb0.
      destruct (a_buffering a) as [z|]; [|discriminate]. subst z. contradiction. }
    rewrite Eb2. eexists _, w. split; [reflexivity|]. split; [exact L|]. split; [auto with frame|]. cbn. auto. }
  assert (exists l, make_buffer f w = (Ok l, w)) as (l & Em).
  { unfold make_buffer. destruct (f_readable f && f_writable f) eqn:Erw.
    - unfold bind. rewrite (check_seekable_live _ _ _ _ L). eexists. reflexivity.
    - destruct (f_writable f); [eexists; reflexivity|]. rewrite orb_false_r in Rw. rewrite Rw. eexists. reflexivity. }
  unfold bind at 1. rewrite Em. destruct (ek_binary ek) eqn:X.
  { eexists _, w. split; [reflexivity|]. split; [exact L|]. split; [auto with frame|]. cbn. auto. }
  destruct (Bi X) as [_ Te]. unfold make_text. rewrite Te, (lv_seek _ _ _ _ L). cbn [andb]. destruct (f_writable f).
  - unfold bind. rewrite (raw_tell_live _ _ _ _ L). eexists _, _. split; [reflexivity|].
    assert (set_pos o (o_pos o) = o) as Hso by (destruct o; reflexivity).
    split; [rewrite <- Hso; apply live_pos; [exact L|apply (lv_pos _ _ _ _ L)]|]. split; [apply frame_fd|]. cbn. auto.
  - unfold bind, ret. eexists _, w. split; [reflexivity|]. split; [exact L|]. split; [auto with frame|]. cbn. auto.
Qed.

Lemma open_started py_u a p w rk ek :
  asks_path a p -> a_closefd a = true ->
  rsopen_prelude py_u (a_name a) (a_mode a) (a_fileno a) (a_handle a) (a_closefd a)
      (a_opener a) (a_thread_safe a) (a_mutex a) (a_enc a) (a_errs a) (a_nl a) = Ok (rk, ek) ->
  in_order w p (rk_must_create rk) (rk_must_not_create rk) ->
  rk_read rk || (rk_write rk || rk_append rk) = true -> text_fine a ek ->
  (ek_truncate ek = true -> rk_write rk || rk_append rk = true) -> (a_locking a = true -> ~ wrong_nonneg (a_timeout a)) ->
  exists s w' o i, rsopen py_u a w = (Ok s, w') /\ started rk a ek p w s w' o i.
Proof.
  intros Ha Hac Ep Or Rw Bi Tr Ti. destruct (prelude_fields _ _ _ _ Ep) as [F _]. destruct (F p Ha) as [Hp Hcl]. rewrite Hac in Hcl.
  assert (Hck : init_checks rk = Ok tt).
  { pose proof Hp as (H1 & H2 & H3). destruct (or_path _ _ _ _ Or) as [P1 P2]. unfold init_checks. rewrite H1, H2, H3, Hcl.
    destruct p as [|c p]; [congruence|]. cbn [path_truthy is_some b2n Nat.add Nat.eqb negb andb orb].
    assert (negb (rk_read rk) && negb (rk_write rk || rk_append rk) = false) as ->.
    { rewrite <- negb_orb, Rw. reflexivity. }
    assert (rk_must_create rk && rk_must_not_create rk = false) as ->.
    { destruct (rk_must_create rk) eqn:E1, (rk_must_not_create rk) eqn:E2; auto. exfalso.
      apply (or_exist _ _ _ _ Or eq_refl). now apply (or_create _ _ _ _ Or). }
    destruct (chr_mem "000" (c :: p)) eqn:Ec; [|reflexivity]. exfalso. apply P2. now apply chr_mem_In. }
  destruct (or_number _ _ _ _ Or) as (fd0 & fds & N1 & N2 & N3). destruct (or_inode _ _ _ _ Or) as (u0 & us & U1 & U2).
  assert (exists f w0, raw_open rk w = (Ok f, w0)) as (f & w0 & Eo).
  { apply (C05_open_succeeds_iff rk p w fd0 fds u0 us); auto.
    - intros e He. apply (or_calls _ _ _ _ Or e). destruct (w_io w); [discriminate|]. injection He as ->. now left.
    - intros v Hv. destruct (or_file _ _ _ _ Or v Hv) as (i & I1 & I2). exists i. split; [exact I1|congruence].
    - split; intros X; [now apply (or_create _ _ _ _ Or)|now apply (or_exist _ _ _ _ Or)]. }
  pose proof Eo as Eo'. apply (raw_open_path rk p) in Eo'; auto.
  inversion Eo' as [|?|w0' fd o i Hck' Ho Hk]; subst. clear Eo'. set (f := stream_of rk w fd o i) in *.
  assert (fd = fd0) as -> by (pose proof (op_newfd _ _ _ _ _ _ _ Ho); congruence).
  assert (Tg : target w p (o_uid o)).
  { destruct (op_how _ _ _ _ _ _ _ Ho) as [(A & B & _)|(A & _ & C & _)]; [left; exact A|right]. split; [exact A|].
    exact C. }
  assert (Kr : n_kind i = KReg).
  { destruct (op_how _ _ _ _ _ _ _ Ho) as [(A & B & _)|(_ & _ & _ & ->)]; [|reflexivity].
    destruct (or_file _ _ _ _ Or _ A) as (i' & I1 & I2). congruence. }
  assert (L0 : live f w0 o i).
  { constructor; try apply Ho; auto.
    - rewrite (op_pos _ _ _ _ _ _ _ Ho), Kr. destruct (rk_append rk); lia.
    - unfold f, stream_of. cbn [f_seekable]. now rewrite Kr. }
  assert (Ne0 : no_err w0).
  { intros e He. apply (or_calls _ _ _ _ Or e). rewrite (op_io _ _ _ _ _ _ _ Ho) in He. now apply incl_tl_refl. }
  destruct (or_free _ _ _ _ Or _ Tg) as (T0 & D0 & K0).
  assert (Tb : forall v, table w0 v = table w v /\ pending w0 v = pending w v /\ r_map (registry_of w0) v = r_map (registry_of w) v).
  { intros v. unfold table, pending, registry_of. rewrite (op_reg _ _ _ _ _ _ _ Ho), (op_pid _ _ _ _ _ _ _ Ho). auto. }
  assert (Uf : uid_of f = o_uid o) by reflexivity. assert (Ff : fd_of f = fd0) by reflexivity.
  assert (Wf : f_writable f = (rk_write rk || rk_append rk)) by reflexivity.
  assert (Rf : f_readable f = rk_read rk) by reflexivity.
  assert (Cf : f_uid f = Some (o_uid o) /\ f_fd f = Some fd0 /\ f_closefd f = true) by (repeat split; exact Hcl).
  assert (Rd : rk_read rk = true -> o_rd o = true).
  { intros X. rewrite (op_rd _ _ _ _ _ _ _ Ho), X. now destruct (rk_write rk || rk_append rk). }
  assert (Wr : rk_write rk || rk_append rk = true -> o_wr o = true).
  { intros X. now rewrite (op_wr _ _ _ _ _ _ _ Ho). }
  clearbody f.
  (* the lock *)
  assert (Lk : exists w1, (if a_locking a then raw_lock_file f (a_timeout a) PNone PNone 0 SNone ;; ret tt else ret tt) w0 = (Ok tt, w1)
    /\ live f w1 o i /\ no_err w1 /\ (forall d, w_fds w1 d = w_fds w0 d) /\ w_pid w1 = w_pid w0 /\ w_names w1 = w_names w0
    /\ (forall v, w_inodes w1 v = w_inodes w0 v)
    /\ ((a_locking a = false -> table w1 (o_uid o) = []) /\ (a_locking a = true -> table w1 (o_uid o) = [mkLock fd0 (negb (f_writable f)) 0 None]
            /\ forall b, 0 <= b -> process_holds w1 (o_uid o) (negb (f_writable f)) b))
    /\ pending w1 (o_uid o) = [] /\ (forall v, v <> o_uid o -> r_map (registry_of w1) v = r_map (registry_of w0) v)
    /\ (forall v sh b, v <> o_uid o -> (process_holds w1 v sh b <-> process_holds w0 v sh b))).
  { destruct (a_locking a) eqn:Hlk.
    - specialize (Ti eq_refl). set (sh := negb (f_writable f)).
      assert (Pc : proper_call f w0 PNone PNone 0 sh 0).
      { constructor.
        - apply L0.
        - apply L0.
        - intros [X|(z & X & _)]; discriminate.
        - discriminate.
        - auto.
        - unfold sh. destruct (f_writable f) eqn:Ew; cbn [negb]; [reflexivity|]. rewrite Rf. rewrite <- Wf, orb_false_r in Rw. exact Rw.
        - left. auto.
        - apply Z.le_refl.
        - constructor.
          + exists o. split; [apply L0|]. split; [now rewrite Uf|]. unfold sh. destruct (f_writable f) eqn:Ew; cbn [negb].
            * apply Wr. now rewrite <- Wf.
            * apply Rd. rewrite <- Wf, orb_false_r in Rw. exact Rw.
          + rewrite Uf. rewrite (lv_ino _ _ _ _ L0). discriminate.
          + exact Ne0.
        - intros o' i' X Y. rewrite (lv_fd _ _ _ _ L0) in X. injection X as <-. rewrite (lv_ino _ _ _ _ L0) in Y. injection Y as <-.
          split; apply L0.
        - intros (lk & b & X & _). rewrite Uf, (proj1 (Tb _)), T0 in X. exact X. }
      assert (Nb : ~ busy w0 (uid_of f) (fd_of f) 0 (parg_opt PNone) sh).
      { intros [(lk & b & X & _)|(sg & b & X & Y & Z & _)].
        - rewrite Uf, (proj1 (Tb _)), T0 in X. exact X.
        - rewrite (op_kern _ _ _ _ _ _ _ Ho) in X. rewrite (op_pid _ _ _ _ _ _ _ Ho) in Y. apply Y, K0; [exact X|congruence]. }
      destruct (lock_available_exact f w0 PNone PNone 0 sh 0 (a_timeout a) Pc Ti Nb) as (w1 & E1 & T1 & I1).
      rewrite <- C21_lock_file_default_share in E1. unfold bind. rewrite E1. exists w1. split; [reflexivity|].
      rewrite C21_lock_file_default_share in E1.
      destruct (C21_lock_file_obtains _ _ _ _ _ _ _ _ _ _ E1) as (_ & _ & _ & [O1 O2 O3 O4 O5 O6 O7 O8 O9 _ _]).
      pose proof (lock_file_env _ _ _ _ _ _ _ _ _ E1) as (_ & _ & _ & Io & _).
      split. { constructor; try apply L0; [rewrite O2; apply L0|rewrite I1; apply L0]. }
      split. { intros e He. apply (Ne0 e). now apply Io. }
      split; [exact O2|]. split; [exact O3|]. split; [exact O1|]. split; [exact I1|].
      rewrite Uf in *. rewrite (proj1 (Tb _)), T0 in T1.
      split. { split; [discriminate|]. intros _. rewrite T1, Ff. split; [reflexivity|]. intros b Hb. apply O8. split; [lia|exact I]. }
      split. { rewrite O5. destruct (Tb (o_uid o)) as (_ & X & _). now rewrite X. }
      split; [exact O7|]. intros v sh' b Hv. apply O9. intros [X _]. congruence.
    - exists w0. split; [reflexivity|]. split; [exact L0|]. split; [exact Ne0|]. do 4 (split; [solve [auto]|]).
      destruct (Tb (o_uid o)) as (X & Y & _). rewrite X, T0. split; [split; [reflexivity|discriminate]|]. rewrite Y, D0. split; [reflexivity|]. split; [auto|]. intros; tauto. }
  destruct Lk as (w1 & E1 & L1 & Ne1 & Fd1 & Pi1 & Na1 & I1 & M1 & Pe1 & Re1 & H1).
  (* the truncation *)
  assert (Tc : exists w2 i2, (if ek_truncate ek then raw_truncate f (Some 0) ;; ret tt else ret tt) w1 = (Ok tt, w2)
     /\ live f w2 o i2 /\ n_data i2 = (if ek_truncate ek then [] else n_data i) /\ frame fd0 (o_uid o) w1 w2).
  { destruct (ek_truncate ek).
    - specialize (Tr eq_refl). rewrite Tr in Wf. unfold bind. rewrite (raw_truncate_eq _ _ _ _ (Some 0) L1 Wf). cbn [Z.ltb Z.compare].
      destruct (truncate_body_live f w1 o i 0 L1 (Z.le_refl 0)) as (r & w4 & E4 & Fr & C). rewrite E4.
      destruct C as [(-> & i2 & L2 & D2 & _)|([X|(e & X)] & _ & _)].
      + exists w4, i2. rewrite Ff in Fr. split; [reflexivity|]. split; [exact L2|]. split; [rewrite D2; reflexivity|exact Fr].
      + rewrite Wr in X by exact Tr. discriminate.
      + exfalso. apply hd_in in X. apply (Ne1 e X).
    - exists w1, i. split; [reflexivity|]. split; [exact L1|]. split; [reflexivity|]. auto with frame. }
  destruct Tc as (w2 & i2 & E2 & L2 & D2 & F2).
  assert (Rw' : f_readable f || f_writable f = true) by (rewrite Rf, Wf; exact Rw).
  destruct (open_tail_fine a ek f w2 o i2 L2) as (s & w2' & Es & L2' & F2' & St); auto; [congruence|].
  exists s, w2', o, i2.
  assert (Ew : open_wrap a ek f w0 = (Ok s, w2')).
  { unfold open_wrap.
    assert (open_body a ek f w0 = (Ok s, w2')) as ->; [|reflexivity].
    unfold open_body. unfold bind at 1. rewrite (lv_seek _ _ _ _ L0).
    change (match ((if a_locking a then raw_lock_file f (a_timeout a) PNone PNone 0 SNone ;; ret tt else ret tt) ;;
                   (if ek_truncate ek then raw_truncate f (Some 0) ;; ret tt else ret tt)) w0 with
            | (Ok _, w3) => open_tail a ek f w3 | (Err e, w3) => (Err e, w3) end = (Ok s, w2')).
    unfold bind at 1. rewrite E1, E2. exact Es. }
  split. { unfold rsopen. rewrite Ep. unfold bind. rewrite Eo. exact Ew. }
  destruct (open_tail_ok _ _ _ _ _ _ Es) as (_ & Hs & Hl). rewrite Ff in F2'. pose proof (frame_trans _ _ _ _ _ F2 F2') as F3.
  clear F2 F2'. rename F3 into F2. clear Es. rename w2 into w2x, w2' into w2.
  destruct Cf as (Cf1 & Cf2 & Cf3).
  assert (Rg : registry_of w2 = registry_of w1) by (unfold registry_of; now rewrite (fr_reg _ _ _ _ F2), (fr_pid _ _ _ _ F2)).
  constructor; rewrite ?Hs, ?Ff; auto.
  - repeat split; auto; [apply Ho|]. intros X. now rewrite (op_pos _ _ _ _ _ _ _ Ho), X.
  - split; apply Ho.
  - intros c Hc X. rewrite (op_pos _ _ _ _ _ _ _ Ho), X, Kr. cbn.
    destruct (op_how _ _ _ _ _ _ _ Ho) as [(A & B & _)|(A & _ & _ & ->)], Hc as [(u & j & C1 & C2 & _ & C3)|(C1 & ->)]; try congruence.
    + assert (u = o_uid o) as -> by congruence. assert (j = i) as -> by congruence. now rewrite C3.
    + reflexivity.
  - exists (n_data i). split; [|exact D2].
    destruct (op_how _ _ _ _ _ _ _ Ho) as [(A & B & _)|(A & _ & _ & ->)]; [left; exists (o_uid o), i; auto|right; auto].
  - intros e He. apply (Ne1 e). now apply (fr_io _ _ _ _ F2).
  - intros d Hd. rewrite (fr_fds _ _ _ _ F2) by auto. rewrite Fd1. now apply Ho.
  - rewrite (fr_pid _ _ _ _ F2), Pi1. apply Ho.
  - rewrite (fr_names _ _ _ _ F2), Na1. apply Ho.
  - intros q Hq. rewrite (fr_names _ _ _ _ F2), Na1. now apply Ho.
  - intros v Hv. rewrite (fr_inodes _ _ _ _ F2), I1 by auto. now apply Ho.
  - unfold table. rewrite Rg. destruct M1 as [M1 M2]. unfold table in M1, M2. destruct (a_locking a).
    + destruct (M2 eq_refl) as [-> _]. intros lk [<-|[]]. auto.
    + rewrite M1 by reflexivity. intros lk [].
  - unfold table in *. rewrite Rg. unfold process_holds in *. rewrite (fr_kern _ _ _ _ F2), (fr_pid _ _ _ _ F2). exact M1.
  - unfold pending. rewrite Rg. exact Pe1.
  - intros v Hv. rewrite Rg, Re1 by auto. apply Tb.
  - intros v sh b Hv. unfold process_holds in *. rewrite (fr_kern _ _ _ _ F2), (fr_pid _ _ _ _ F2). rewrite H1 by auto.
    rewrite (op_kern _ _ _ _ _ _ _ Ho), (op_pid _ _ _ _ _ _ _ Ho). tauto.
  - destruct Hl as [(A & B & _)|(A & B & C)]; [left; auto|right]. split; [exact A|]. split; [exact B|].
    apply make_buffer_layer in C. rewrite C, Rf, Wf. reflexivity.
Qed.

(** * Closing *)

Lemma close_fine rk a ek p w s w1 o i w2 o2 i2 : started rk a ek p w s w1 o i -> live (st_raw s) w2 o2 i2 -> sameo o o2 ->
  frame (fd_of (st_raw s)) (o_uid o) w1 w2 ->
  exists w3, raw_close (st_raw s) w2 = (Ok tt, w3) /\ left_clean w w3 p /\ w_inodes w3 = w_inodes w2 /\ w_names w3 = w_names w2.
Proof.
  intros S L2 So F. destruct S as [U (Fd & Nz & Cl) _ _ _ L1 _ Ne Tg Was Fds Pid Na Nas Fi Mi _ Pe Ot Ke _ _].
  set (f := st_raw s) in *. set (u := o_uid o) in *.
  assert (Rg : registry_of w2 = registry_of w1) by (unfold registry_of; now rewrite (fr_reg _ _ _ _ F), (fr_pid _ _ _ _ F)).
  assert (T2 : table w2 u = table w1 u) by (unfold table; now rewrite Rg).
  assert (P2 : pending w2 u = []) by (unfold pending; rewrite Rg; exact Pe).
  assert (U2 : o_uid o2 = u) by apply So.
  assert (Ow : owner f w2 u (fd_of f)).
  { constructor; auto.
    - exists o2. split; [apply L2|exact U2].
    - rewrite <- U2, (lv_ino _ _ _ _ L2). discriminate.
    - split; rewrite P2; [constructor|intros d []].
    - rewrite P2. intros []. }
  destruct (raw_close_ok f w2 u (fd_of f) Ow (lv_open _ _ _ _ L2) Cl) as (w3 & E3 & K3 & _ & T3 & R3 & _ & C3 & D3).
  - intros lk Hlk. unfold mine in Hlk. apply filter_In in Hlk. destruct Hlk as [Hlk _]. rewrite T2 in Hlk.
    destruct (Mi _ Hlk) as (_ & -> & ->). split; [lia|trivial].
  - intros _ e He. apply (Ne e). now apply (fr_io _ _ _ _ F).
  - exists w3. split; [exact E3|]. split; [|split; apply K3].
    assert (T : table w3 u = []).
    { rewrite T3, T2. clear - Mi. induction (table w1 u) as [|lk l IH]; [reflexivity|]. cbn [filter].
      destruct (Mi lk (or_introl eq_refl)) as (-> & _). rewrite Z.eqb_refl. cbn [negb]. apply IH. intros x Hx. apply Mi. now right. }
    destruct C3 as [(_ & X1 & X2 & X3 & _)|(X & _)]; [|congruence].
    constructor.
    + rewrite (kp_pid _ _ K3), (fr_pid _ _ _ _ F). exact Pid.
    + intros d. destruct (Z.eq_dec d (fd_of f)) as [-> |Hd]; [congruence|].
      rewrite D3 by (auto; rewrite P2; intros []). rewrite (fr_fds _ _ _ _ F) by auto. now apply Fds.
    + intros q Hq. rewrite (kp_names _ _ K3), (fr_names _ _ _ _ F). now apply Nas.
    + rewrite (kp_names _ _ K3), (fr_names _ _ _ _ F), Na, (kp_inodes _ _ K3). intros v Hv.
      rewrite (fr_inodes _ _ _ _ F) by congruence. apply Fi. congruence.
    + intros v. destruct (uid_dec v u) as [-> |Hv].
      * rewrite T, X3. destruct Tg as [-> ->]. auto.
      * unfold table, pending. rewrite R3, Rg, Ot by auto. auto.
    + intros v sh b. rewrite (kp_names _ _ K3), (fr_names _ _ _ _ F), Na. intros [= <-]. apply X2.
    + intros v sh b Hh. destruct (uid_dec v u) as [-> |Hv]; [now apply X2 in Hh|].
      apply (kp_own _ _ K3) in Hh. apply Ke; [exact Hv|]. unfold process_holds in *. 
      now rewrite (fr_kern _ _ _ _ F), (fr_pid _ _ _ _ F) in Hh.
Qed.

(** * Writing *)

Lemma no_err_hd w : no_err w -> forall e, hd IoFull (w_io w) <> IoErr e.
Proof. intros N e X. apply hd_in in X. exact (N e X). Qed.
Lemma no_err_incl w w' : incl (w_io w') (w_io w) -> no_err w -> no_err w'.
Proof. intros I N e He. apply (N e). now apply I. Qed.

(** A stream whose system calls succeed. *)
Record going (b : bstate) (o : ofd) (i : inode) : Prop := mkGoing {
  go_live : live (b_raw b) (b_w b) o i; go_calls : no_err (b_w b); go_wr : f_writable (b_raw b) = true; go_right : o_wr o = true }.

Lemma flush_loop_fine : forall fuel b o i, going b o i -> (List.length (b_wbuf b) < fuel)%nat ->
  exists b' o' i', flush_loop fuel b = (Ok tt, b') /\ going b' o' i' /\ evolves b b' o o' /\ b_wbuf b' = [].
Proof.
  induction fuel as [|fuel IH]; intros b o i G Hf; [lia|]. cbn [flush_loop]. destruct (b_wbuf b) as [|x0 l] eqn:Ew.
  { exists b, o, i. split; [reflexivity|]. split; [exact G|]. split; [auto with frame|exact Ew]. }
  set (buf := x0 :: l) in *. assert (Hne : buf <> []) by discriminate. clearbody buf. clear x0 l.
  destruct G as [L N W Wo]. unfold bind, on_raw at 1. rewrite (raw_write_live _ _ _ _ buf L W Wo).
  pose proof (no_err_hd _ N) as Hh.
  assert (Step : forall e, let x := write_bytes e buf in
    let w' := upd_fd (upd_ino (set_io (b_w b) (tl (w_io (b_w b)))) (o_uid o) (write_ino o i x)) (fd_of (b_raw b)) (Some (set_pos o (write_pos o i + len x))) in
    exists b' o' i', (if (Z.of_nat (List.length buf) <? len x) || (len x <? 0) then raise (EOS 0)
        else fun s => flush_loop fuel (set_wbuf s (skipn (Z.to_nat (len x)) (b_wbuf s)))) (set_world b w') = (Ok tt, b')
      /\ going b' o' i' /\ evolves b b' o o' /\ b_wbuf b' = []).
  { intros e x w'. pose proof (write_pos_nonneg _ _ _ _ L) as P. pose proof (len_nonneg x) as P2.
    pose proof (write_bytes_split e buf) as Sp. fold x in Sp.
    assert (Hl : len buf = len x + len (skipn (Z.to_nat (len x)) buf)) by (rewrite Sp at 1; apply len_app).
    pose proof (len_nonneg (skipn (Z.to_nat (len x)) buf)) as P3.
    pose proof (write_bytes_pos e buf Hne) as P4. fold x in P4.
    assert ((Z.of_nat (List.length buf) <? len x) || (len x <? 0) = false) as ->.
    { apply orb_false_iff; split; apply Z.ltb_ge; unfold len in *; lia. }
    assert (F : frame (fd_of (b_raw b)) (o_uid o) (b_w b) w').
    { eapply frame_trans; [apply frame_io|]. eapply frame_trans; [apply frame_ino|apply frame_fd]. }
    destruct (IH (set_wbuf (set_world b w') (skipn (Z.to_nat (len x)) (b_wbuf (set_world b w')))) (set_pos o (write_pos o i + len x)) (write_ino o i x)) as (b2 & o2 & i2 & E2 & G2 & V2 & W2).
    - constructor; auto.
      + apply live_pos; [|lia]. apply (live_data _ _ _ i); [|reflexivity]. now apply live_io.
      + eapply no_err_incl; [apply (fr_io _ _ _ _ F)|exact N].
    - cbn [set_wbuf set_world b_wbuf]. rewrite Ew. unfold len in *. lia.
    - exists b2, o2, i2. split; [exact E2|]. split; [exact G2|]. split; [|exact W2].
      eapply evolves_trans; [|exact V2]. constructor; auto. apply sameo_pos. }
  destruct (hd IoFull (w_io (b_w b))) as [|k|x].
  - exact (Step IoFull).
  - exact (Step (IoShort k)).
  - exfalso. exact (Hh x eq_refl).
Qed.
Lemma flush_fine b o i : going b o i ->
  exists b' o' i', flush_unlocked b = (Ok tt, b') /\ going b' o' i' /\ evolves b b' o o' /\ b_wbuf b' = [].
Proof.
  intros G. unfold flush_unlocked, bind, b_check_closed. rewrite (lv_open _ _ _ _ (go_live _ _ _ G)).
  apply (flush_loop_fine _ _ _ _ G). lia.
Qed.

Lemma sync_fine h f w o i : live f w o i -> no_err w ->
  exists w' i', raw_sync h f true true w = (Ok tt, w') /\ live f w' o i' /\ frame (fd_of f) (o_uid o) w w'.
Proof.
  intros L N. unfold raw_sync, bind. rewrite (check_closed_live _ _ _ _ L). unfold inner_sync, attempt_os.
  rewrite (sys_flush_live _ _ _ _ L). pose proof (no_err_hd _ N) as Hh.
  assert (Good : exists w' i', upd_ino (set_io w (tl (w_io w))) (o_uid o) (mkIno KReg (n_data i) false) = w' /\ live f w' o i'
     /\ frame (fd_of f) (o_uid o) w w').
  { do 2 eexists. split; [reflexivity|]. split; [apply (live_data _ _ _ i); [now apply live_io|reflexivity]|].
    eapply frame_trans; [apply frame_io|apply frame_ino]. }
  destruct Good as (w' & i' & Ew & Gl & Gf). exists w', i'. rewrite <- Ew in *.
  destruct (hd IoFull (w_io w)) as [|k|x]; [auto|auto|]. exfalso. exact (Hh x eq_refl).
Qed.

Lemma write_body_fine h sync d l f size w o i :
  going (fresh f size w) o i -> l = LRaw \/ l = LWriter /\ 0 <= size ->
  exists b' o' i', write_body h sync d l (fresh f size w) = (Ok tt, b') /\ going b' o' i' /\ evolves (fresh f size w) b' o o'
    /\ b_wbuf b' = [].
Proof.
  intros G Hl. unfold write_body. unfold bind at 1.
  assert (Wr : exists n b0 o0 i0, s_write l d (fresh f size w) = (Ok n, b0) /\ going b0 o0 i0 /\ evolves (fresh f size w) b0 o o0
     /\ (l = LRaw -> b_wbuf b0 = [])).
  { pose proof (go_live _ _ _ G) as L. cbn [fresh b_raw b_w] in L.
    unfold s_write, on_stream. destruct Hl as [-> |(-> & Hs)]; cbn [kind_of].
    - unfold on_raw. cbn [fresh b_raw b_w]. pose proof (no_err_hd _ (go_calls _ _ _ G)) as Hh. cbn [fresh b_w] in Hh.
      rewrite (raw_write_live _ _ _ _ d L (go_wr _ _ _ G) (go_right _ _ _ G)).
      assert (Step : forall e, let x := write_bytes e d in
         let w' := upd_fd (upd_ino (set_io w (tl (w_io w))) (o_uid o) (write_ino o i x)) (fd_of f) (Some (set_pos o (write_pos o i + len x))) in
         going (set_world (fresh f size w) w') (set_pos o (write_pos o i + len x)) (write_ino o i x)
         /\ evolves (fresh f size w) (set_world (fresh f size w) w') o (set_pos o (write_pos o i + len x))).
      { intros e x w'. pose proof (write_pos_nonneg _ _ _ _ L) as P. pose proof (len_nonneg x) as P2.
        assert (F : frame (fd_of f) (o_uid o) w w').
        { eapply frame_trans; [apply frame_io|]. eapply frame_trans; [apply frame_ino|apply frame_fd]. }
        split.
        - constructor; [|eapply no_err_incl; [apply (fr_io _ _ _ _ F)|apply G]|apply G|apply G].
          apply live_pos; [|lia]. apply (live_data _ _ _ i); [|reflexivity]. now apply live_io.
        - apply evolves_world; [apply sameo_pos|exact F]. }
      destruct (hd IoFull (w_io w)) as [|k|x]; [| |exfalso; exact (Hh x eq_refl)].
      + do 4 eexists. split; [reflexivity|]. destruct (Step IoFull) as [A B]. split; [exact A|]. split; [exact B|reflexivity].
      + do 4 eexists. split; [reflexivity|]. destruct (Step (IoShort k)) as [A B]. split; [exact A|]. split; [exact B|reflexivity].
    - unfold bind. cbn [b_write].
      assert (Ww : exists n b0 o0 i0, writer_write d (fresh f size w) = (Ok n, b0) /\ going b0 o0 i0 /\ evolves (fresh f size w) b0 o o0).
      { unfold writer_write, bind at 1, b_check_closed. cbn [fresh b_raw]. rewrite (lv_open _ _ _ _ L).
        unfold bind at 1. cbn [b_size fresh b_wbuf List.length]. destruct (Z.ltb_spec size (Z.of_nat 0)); [lia|].
        unfold bind. change (mkB f size [] 0 [] w) with (fresh f size w).
        change (set_wbuf (fresh f size w) (b_wbuf (fresh f size w) ++ d)) with (set_wbuf (fresh f size w) d).
        assert (G1 : going (set_wbuf (fresh f size w) d) o i) by (destruct G; constructor; auto).
        assert (V1 : evolves (fresh f size w) (set_wbuf (fresh f size w) d) o o) by (apply evolves_wbuf; auto with frame).
        cbv zeta. destruct (b_size _ <? _).
        - destruct (flush_fine _ _ _ G1) as (b' & o' & i' & E & G' & V' & _). rewrite E. do 4 eexists.
          split; [reflexivity|]. split; [exact G'|]. eapply evolves_trans; eauto.
        - do 4 eexists. split; [reflexivity|]. eauto. }
      destruct Ww as (n & b0 & o0 & i0 & -> & A & B). do 4 eexists. split; [reflexivity|]. split; [exact A|]. split; [exact B|discriminate]. }
  destruct Wr as (n & b0 & o0 & i0 & -> & G0 & V0 & W0).
  assert (Fl : exists b1 o1 i1, s_flush l b0 = (Ok tt, b1) /\ going b1 o1 i1 /\ evolves b0 b1 o0 o1 /\ b_wbuf b1 = []).
  { unfold s_flush, on_stream. destruct Hl as [-> |(-> & Hs)]; cbn [kind_of b_flush].
    - unfold on_raw, raw_flush. rewrite (check_closed_live _ _ _ _ (go_live _ _ _ G0)), set_world_same. exists b0, o0, i0. split; [reflexivity|]. split; [exact G0|]. split; [auto with frame|auto].
    - apply (flush_fine _ _ _ G0). }
  destruct Fl as (b1 & o1 & i1 & E1 & G1 & V1 & W1). unfold bind. rewrite E1.
  assert (V : evolves (fresh f size w) b1 o o1) by (eapply evolves_trans; eauto).
  destruct sync.
  2:{ exists b1, o1, i1. auto. }
  assert (Sy : forall b o i, going b o i -> exists b2 i2, on_raw (fun f => raw_sync h f true true) b = (Ok tt, b2) /\ going b2 o i2 /\ evolves b b2 o o /\ b_wbuf b2 = b_wbuf b).
  { clear. intros b o i G. destruct (sync_fine h _ _ _ _ (go_live _ _ _ G) (go_calls _ _ _ G)) as (w' & i' & E & L' & F').
    exists (set_world b w'), i'. unfold on_raw. rewrite E. split; [reflexivity|]. split; [|split; [apply evolves_world; auto with frame|reflexivity]].
    constructor; [exact L'| |apply G|apply G]. eapply no_err_incl; [apply (fr_io _ _ _ _ F')|apply G]. }
  unfold s_sync, on_stream. destruct Hl as [-> |(-> & Hs)]; cbn [kind_of].
  - destruct (Sy _ _ _ G1) as (b2 & i2 & E2 & G2 & V2 & W2). exists b2, o1, i2. split; [exact E2|]. split; [exact G2|].
    split; [eapply evolves_trans; eauto|congruence].
  - unfold b_sync, bind. cbn [b_flush]. destruct (flush_fine _ _ _ G1) as (b2 & o2 & i2 & E2 & G2 & V2 & W2). rewrite E2.
    destruct (Sy _ _ _ G2) as (b3 & i3 & E3 & G3 & V3 & W3). exists b3, o2, i3. split; [exact E3|]. split; [exact G3|].
    split; [eapply evolves_trans; [exact V|]; eapply evolves_trans; eauto|congruence].
Qed.

(** Closing the stream after its body. *)
Lemma s_close_fine rk a ek p w s w1 o i b o2 i2 : started rk a ek p w s w1 o i -> live (b_raw b) (b_w b) o2 i2 ->
  evolves (fresh (st_raw s) (st_bufsize s) w1) b o o2 -> b_wbuf b = [] ->
  (st_layer s = LRaw \/ st_layer s = LWriter \/ st_layer s = LReader) ->
  exists b', s_close (st_layer s) b = (Ok tt, b') /\ left_clean w (b_w b') p /\ w_inodes (b_w b') = w_inodes (b_w b)
    /\ w_names (b_w b') = w_names (b_w b).
Proof.
  intros S L V W Ly. pose proof (ev_raw _ _ _ _ V) as Er. cbn [fresh b_raw] in Er.
  pose proof (ev_frame _ _ _ _ V) as F. cbn [fresh b_raw b_w] in F. rewrite Er in L.
  destruct (close_fine _ _ _ _ _ _ _ _ _ _ _ _ S L (ev_o _ _ _ _ V) F) as (w3 & E3 & C3 & I3 & N3).
  assert (Rc : exists b', raw_close_b b = (Ok tt, b') /\ b_w b' = w3).
  { unfold raw_close_b. rewrite Er, E3. eexists. split; reflexivity. }
  destruct Rc as (b' & Eb & <-).
  exists b'. split; [|auto]. unfold s_close, on_stream. destruct Ly as [-> |[-> | ->]]; cbn [kind_of]; [exact Eb| |].
  - unfold b_close. rewrite Er, (lv_open _ _ _ _ L). unfold finally, b_flush, flush_unlocked, bind, b_check_closed.
    rewrite Er, (lv_open _ _ _ _ L), W. cbn [List.length flush_loop]. rewrite W, Eb. reflexivity.
  - unfold b_close. rewrite Er, (lv_open _ _ _ _ L). unfold finally, b_flush, bind, b_check_closed, on_raw, raw_flush.
    rewrite Er, (lv_open _ _ _ _ L). cbv beta iota zeta. rewrite Er, (check_closed_live _ _ _ _ L), set_world_same, Eb. reflexivity.
Qed.

(** * Reading *)

Lemma s_read_fine l f size w o i : live f w o i -> no_err w -> f_readable f = true -> o_rd o = true -> l = LRaw \/ l = LReader ->
  exists d b', s_read l (fresh f size w) = (Ok (Some d), b').
Proof.
  intros L N R Ro Hl. destruct (C25_readall f w o i None L R Ro N (or_introl eq_refl)) as (d & w' & o' & E & _).
  assert (Ea : raw_readall f w = (Ok (Some d), w')).
  { unfold raw_read, bind in E. rewrite (check_closed_live _ _ _ _ L), (check_readable_live _ _ _ _ L), R in E. exact E. }
  exists d. destruct Hl as [-> | ->]; unfold s_read, on_stream; cbn [kind_of].
  - unfold on_raw. cbn [fresh b_raw b_w]. rewrite E. eexists. reflexivity.
  - unfold b_read, reader_read, read_unlocked, bind, reset_read_buf, on_raw.
    cbn [fresh set_rbuf b_raw b_w b_size b_wbuf]. rewrite Ea. cbn. eexists. reflexivity.
Qed.

Lemma read_whole_fine l f size w o i : live f w o i -> no_err w -> o_pos o = 0 -> f_readable f = true -> o_rd o = true ->
  l = LRaw \/ l = LReader ->
  exists w' o', read_whole l (fresh f size w) = (Ok (n_data i), fresh f size w') /\ live f w' o' i /\ sameo o o'
    /\ frame (fd_of f) (o_uid o) w w' /\ w_inodes w' = w_inodes w.
Proof.
  intros L N Hp R Ro Hl. assert (Nb : forall w1, incl (w_io w1) (w_io w) -> no_block w1).
  { intros w1 I. split; intros X; apply I in X; eapply N; exact X. }
  pose proof (len_nonneg (n_data i)) as Ln.
  unfold read_whole, bind, on_raw, readall_fuel. cbn [fresh b_raw b_w].
  rewrite (lv_fd _ _ _ _ L), (lv_ino _ _ _ _ L). change (set_world _ w) with (fresh f size w).
  cbn [read_blocks]. unfold bind at 1.
  destruct (s_read_fine l f size w o i L N R Ro Hl) as (d1 & b1 & E1). rewrite E1.
  apply (s_read_good _ _ _ _ o i) in E1; auto; [|apply Nb, incl_refl|lia].
  destruct E1 as (w1 & o1 & -> & Ed & L1 & -> & F1 & I1). injection Ed as ->. rewrite Hp. change (skipn (Z.to_nat 0) (n_data i)) with (n_data i).
  destruct (n_data i) as [|x dd] eqn:Edd.
  { exists w1, (set_pos o (len (@nil Z))). split; [reflexivity|]. split; [exact L1|]. split; [apply sameo_pos|auto]. }
  rewrite <- Edd in *. unfold bind at 1.
  assert (N1 : no_err w1) by (eapply no_err_incl; [apply (fr_io _ _ _ _ F1)|exact N]).
  destruct (s_read_fine l f size w1 _ i L1 N1 R Ro Hl) as (d2 & b2 & E2). rewrite E2.
  apply (s_read_good _ _ _ _ (set_pos o (len (n_data i))) i) in E2; auto; [|apply Nb, (fr_io _ _ _ _ F1)|cbn; lia].
  destruct E2 as (w2 & o2 & -> & Ed & L2 & -> & F2 & I2). injection Ed as ->. cbn [set_pos o_pos].
  replace (skipn (Z.to_nat (len (n_data i))) (n_data i)) with (@nil Z) by (unfold len; rewrite Nat2Z.id, skipn_all; reflexivity).
  do 2 eexists. split; [reflexivity|]. split; [exact L2|]. split; [eapply sameo_trans; apply sameo_pos|].
  split; [eapply frame_trans; [exact F1|exact F2]|congruence].
Qed.

(** * C90 *)

Lemma with_open_fine {A} py_u a (body : layer -> B A) w s w1 x b1 b2 : rsopen py_u a w = (Ok s, w1) ->
  body (st_layer s) (fresh (st_raw s) (st_bufsize s) w1) = (Ok x, b1) -> s_close (st_layer s) b1 = (Ok tt, b2) ->
  with_open py_u a body w = (Ok x, b_w b2).
Proof. intros E1 E2 E3. unfold with_open, bind. rewrite E1. unfold finally. rewrite E2, E3. reflexivity. Qed.

(** Writing at the end of what is there. *)
Lemma write_fine py_u h a p sync d w s w1 rk ek o i :
  started rk a ek p w s w1 o i -> rk_read rk = false -> rk_write rk || rk_append rk = true -> at_end o i ->
  rsopen py_u a w = (Ok s, w1) ->
  exists w' x y, with_open py_u a (write_body h sync d) w = (Ok tt, w') /\ d = x ++ y /\ has_content w' p (n_data i ++ x)
    /\ (a_buffering a <> Some 0 -> y = []) /\ left_clean w w' p.
Proof.
  intros S Rr Rw At Eo. pose proof (sd_live _ _ _ _ _ _ _ _ _ S) as L.
  destruct (sd_rights _ _ _ _ _ _ _ _ _ S) as (_ & Wf & _ & Wo & _). rewrite Rw in Wf. specialize (Wo Rw).
  assert (Ly : (st_layer s = LRaw \/ st_layer s = LWriter /\ 0 <= st_bufsize s) /\ (a_buffering a <> Some 0 -> st_layer s = LWriter)).
  { destruct (sd_layer _ _ _ _ _ _ _ _ _ S) as [(-> & X)|(X & _ & Y)]; [split; [auto|congruence]|].
    rewrite Rr, Rw in Y. cbn in Y. split; [right; split; auto; lia|auto]. }
  destruct Ly as [Ly Ly2].
  assert (G : going (fresh (st_raw s) (st_bufsize s) w1) o i).
  { constructor; [exact L|apply (sd_calls _ _ _ _ _ _ _ _ _ S)|exact Wf|exact Wo]. }
  destruct (write_body_fine h sync d _ _ _ _ _ _ G Ly) as (b1 & o1 & i1 & E1 & G1 & V1 & W1).
  destruct (s_close_fine _ _ _ _ _ _ _ _ _ _ _ _ S (go_live _ _ _ G1) V1 W1) as (b2 & E2 & C2 & I2 & _); [tauto|].
  assert (Ef : finally (write_body h sync d (st_layer s)) (s_close (st_layer s)) (fresh (st_raw s) (st_bufsize s) w1) = (Ok tt, b2)).
  { unfold finally. rewrite E1, E2. reflexivity. }
  destruct (write_body_end _ _ _ _ _ _ _ _ _ _ _ L At Wf Ly Ef) as (i' & x & y & Hd & Hk & Hi & Hc & (N & _ & _) & Hr).
  exists (b_w b2), x, y. split; [eapply with_open_fine; eauto|]. split; [exact Hd|]. split; [|split; [|exact C2]].
  - exists (o_uid o), i'. rewrite N. split; [apply (sd_name _ _ _ _ _ _ _ _ _ S)|]. auto.
  - intros X. apply Hr; auto.
Qed.

(** Nothing in the way, legal arguments: the data is written whatever the partial writes (all of it
    when the stream is buffered), and the process is as before. *)
Theorem C90_write_to_file : forall py_u has_fdatasync a p d sync must_create must_not_create w,
  fa_name a = NPath p -> has_text_args a = false -> ~ wrong_nonneg (fa_timeout a) ->
  in_order w p must_create must_not_create ->
  exists w' x y, write_to_file py_u has_fdatasync a d sync must_create must_not_create w = (Ok tt, w')
    /\ d = x ++ y /\ has_content w' p x /\ (fa_buffering a <> Some 0 -> y = []) /\ left_clean w w' p.
Proof.
  intros py_u h a p d sync mc mn w Hn Ht Hti Or. pose proof (write_prelude py_u a p mc mn Hn) as Ep. rewrite Ht in Ep. unfold prelude_of in Ep.
  set (rk := mkRaw _ _ _ _ _ _ _ _ _ _ _) in *. set (ek := mkExt _ _ _) in *.
  destruct (open_started py_u (open_args a (write_mode mc mn)) p w rk ek) as (s & w1 & o & i & Eo & S); auto; try (intros X; discriminate X).
  { repeat split; auto. }
  destruct (sd_data _ _ _ _ _ _ _ _ _ S) as (c & Hc & D).
  destruct (sd_rights _ _ _ _ _ _ _ _ _ S) as (_ & _ & _ & _ & Ap & Po).
  assert (D0 : n_data i = []).
  { rewrite D. destruct mc; [|reflexivity]. cbn [ek ek_truncate negb]. pose proof (or_create _ _ _ _ Or eq_refl) as X.
    destruct Hc as [(u & j & A & _)|[_ ->]]; [congruence|reflexivity]. }
  assert (At : at_end o i) by (unfold at_end, write_pos; rewrite Ap, (Po eq_refl), D0; reflexivity).
  destruct (write_fine py_u h _ p sync d w s w1 rk ek o i S eq_refl eq_refl At Eo) as (w' & x & y & A & B & C & E & F).
  rewrite D0 in C. exists w', x, y. auto.
Qed.

Theorem C90_append_to_file : forall py_u has_fdatasync a p d sync must_not_create w,
  fa_name a = NPath p -> has_text_args a = false -> ~ wrong_nonneg (fa_timeout a) ->
  in_order w p false must_not_create ->
  exists w' c x y, append_to_file py_u has_fdatasync a d sync must_not_create w = (Ok tt, w')
    /\ d = x ++ y /\ had_content w p c /\ has_content w' p (c ++ x) /\ (fa_buffering a <> Some 0 -> y = []) /\ left_clean w w' p.
Proof.
  intros py_u h a p d sync mn w Hn Ht Hti Or. pose proof (append_prelude py_u a p mn Hn) as Ep. rewrite Ht in Ep. unfold prelude_of in Ep.
  set (rk := mkRaw _ _ _ _ _ _ _ _ _ _ _) in *. set (ek := mkExt _ _ _) in *.
  destruct (open_started py_u (open_args a (append_mode mn)) p w rk ek) as (s & w1 & o & i & Eo & S); auto; try (intros X; discriminate X).
  { repeat split; auto. }
  destruct (sd_data _ _ _ _ _ _ _ _ _ S) as (c & Hc & D). cbn [ek ek_truncate] in D.
  destruct (sd_rights _ _ _ _ _ _ _ _ _ S) as (_ & _ & _ & _ & Ap & Po).
  assert (At : at_end o i) by (unfold at_end, write_pos; rewrite Ap; reflexivity).
  destruct (write_fine py_u h _ p sync d w s w1 rk ek o i S eq_refl eq_refl At Eo) as (w' & x & y & A & B & C & E & F).
  rewrite D in C. exists w', c, x, y. auto 10.
Qed.

Theorem C90_read_from_file : forall py_u a p w,
  fa_name a = NPath p -> has_text_args a = false -> ~ wrong_nonneg (fa_timeout a) ->
  in_order w p false true ->
  exists w' c, read_from_file py_u a w = (Ok c, w') /\ has_content w p c /\ has_content w' p c /\ left_clean w w' p.
Proof.
  intros py_u a p w Hn Ht Hti Or. pose proof (read_prelude py_u a p Hn) as Ep. rewrite Ht in Ep. unfold prelude_of in Ep.
  set (rk := mkRaw _ _ _ _ _ _ _ _ _ _ _) in *. set (ek := mkExt _ _ _) in *.
  destruct (open_started py_u (open_args a read_mode) p w rk ek) as (s & w1 & o & i & Eo & S); auto; try (intros X; discriminate X).
  { repeat split; auto. }
  destruct (sd_data _ _ _ _ _ _ _ _ _ S) as (c & Hc & D). cbn [ek ek_truncate] in D.
  destruct (sd_rights _ _ _ _ _ _ _ _ _ S) as (Rf & _ & Ro & _ & _ & Po). specialize (Ro eq_refl). specialize (Po eq_refl).
  pose proof (sd_live _ _ _ _ _ _ _ _ _ S) as L. pose proof (sd_calls _ _ _ _ _ _ _ _ _ S) as N.
  assert (Ly : st_layer s = LRaw \/ st_layer s = LReader).
  { destruct (sd_layer _ _ _ _ _ _ _ _ _ S) as [(-> & _)|(_ & _ & ->)]; auto. }
  destruct (read_whole_fine (st_layer s) _ (st_bufsize s) _ _ _ L N Po Rf Ro Ly) as (w2 & o2 & E1 & L2 & So & F2 & I2).
  assert (V : evolves (fresh (st_raw s) (st_bufsize s) w1) (fresh (st_raw s) (st_bufsize s) w2) o o2) by (constructor; auto).
  destruct (s_close_fine _ _ _ _ _ _ _ _ _ (fresh (st_raw s) (st_bufsize s) w2) _ _ S L2 V eq_refl) as (b2 & E2 & C2 & I3 & N3); [tauto|].
  exists (b_w b2), (n_data i). split; [eapply with_open_fine; eauto|].
  split; [|split; [|exact C2]].
  - rewrite D. destruct Hc as [Hc|[Hc _]]; [exact Hc|]. now apply (or_exist _ _ _ _ Or) in Hc.
  - exists (o_uid o), i. rewrite N3, I3. cbn [fresh b_w]. rewrite I2, (fr_names _ _ _ _ F2).
    split; [apply (sd_name _ _ _ _ _ _ _ _ _ S)|]. split; [apply L|]. split; [apply L|reflexivity].
Qed.

(** * The hypotheses hold somewhere *)

Definition demo_args : fileargs := mkFA (NPath (name "f")) None false false false true (PInt 0).
Lemma demo_in_order c io : (forall e, ~ In (IoErr e) io) -> in_order (demo c io [] []) (name "f") false true.
Proof.
  intros N. constructor.
  - exact N.
  - exists 3, [4; 5]. repeat split. discriminate.
  - exists (1, 30), [(1, 31)]. split; reflexivity.
  - split; [discriminate|]. cbn. intros [X|[]]. discriminate.
  - intros u Hu. cbn in Hu. injection Hu as <-. eexists. split; reflexivity.
  - discriminate.
  - intros _. discriminate.
  - intros u _. split; [|split; [|intros s []]]; unfold table, pending; reflexivity.
Qed.
Lemma short_calls e : ~ In (IoErr e) [IoFull; IoShort 1; IoFull; IoShort 2; IoShort 1].
Proof. cbn. intuition discriminate. Qed.
Example C90_short_writes : exists w w', in_order w (name "f") false true
  /\ write_to_file false true demo_args [7;8;9;10] true false true w = (Ok tt, w')
  /\ has_content w (name "f") [1;2;3] /\ has_content w' (name "f") [7;8;9;10] /\ left_clean w w' (name "f").
Proof.
  pose proof (demo_in_order [1;2;3] [IoFull; IoShort 1; IoFull; IoShort 2; IoShort 1] short_calls) as Or.
  destruct (C90_write_to_file false true demo_args (name "f") [7;8;9;10] true false true _ eq_refl eq_refl
     ltac:(intros [X|(z & [= <-] & X)]; [discriminate|lia]) Or) as (w' & x & y & E & D & C & Y & L).
  rewrite (Y ltac:(discriminate)), app_nil_r in D. subst x.
  eexists. exists w'. split; [exact Or|]. split; [exact E|]. split; [|auto].
  exists (1, 10), (mkIno KReg [1;2;3] false). repeat split; reflexivity.
Qed.

(** * What each hypothesis is for *)

(** Descriptor 0, free in a process started without standard input: the function fails. *)
Definition number_0 : world :=
  let w := demo [1;2;3] [] [] [] in set_newfd w [0].
Theorem C90_descriptor_0_refuted : exists w, w_newfd w = [0] /\ w_fds w 0 = None /\ has_content w (name "f") [1;2;3]
  /\ (forall u, unlocked w u)
  /\ fst (read_from_file false demo_args w) = Err EAssert.
Proof.
  exists number_0. split; [reflexivity|]. split; [reflexivity|].
  split. { exists (1, 10), (mkIno KReg [1;2;3] false). repeat split; reflexivity. }
  split. { intros u. split; [|split; [|intros s []]]; reflexivity. }
  vm_compute. reflexivity.
Qed.

(** Another process holding a lock: with timeout 0 the function fails; the file is as it was. *)
Theorem C90_locked_elsewhere : exists w e w', has_content w (name "f") [1;2;3]
  /\ (exists s, In s (w_kern w) /\ k_ino s = (1, 10) /\ k_pid s <> w_pid w)
  /\ write_to_file false true demo_args [7] false false false w = (Err e, w') /\ has_content w' (name "f") [1;2;3].
Proof.
  exists (demo [1;2;3] [] [] [mkSeg 200 (1, 10) true 5 (Some 6)]).
  destruct (write_to_file false true demo_args [7] false false false (demo [1;2;3] [] [] [mkSeg 200 (1, 10) true 5 (Some 6)])) as [r w'] eqn:E.
  vm_compute in E. injection E as <- <-. eexists. eexists.
  split. { exists (1, 10), (mkIno KReg [1;2;3] false). repeat split; reflexivity. }
  split. { exists (mkSeg 200 (1, 10) true 5 (Some 6)). split; [now left|]. split; [reflexivity|discriminate]. }
  split; [reflexivity|]. exists (1, 10), (mkIno KReg [1;2;3] false). repeat split; reflexivity.
Qed.

(** A stream of this process with a lock on the file, elsewhere than in the area read (append_to_file without locking): the
    call succeeds but its descriptor stays open until that lock goes. *)
Definition held_here : world :=
  let w := demo [1;2;3] [] [] [] in
  let '(f, w1) := demo_open "f" true true false w in
  snd (raw_lock_file f PNone (PInt 1) (PInt 100) 0 SNone w1).
Theorem C90_descriptor_stays_refuted : exists w w' d,
  append_to_file false true (mkFA (NPath (name "f")) None false false false false PNone) [7] false false w = (Ok tt, w')
  /\ w_fds w d = None /\ w_fds w' d <> None.
Proof.
  exists held_here.
  destruct (append_to_file false true (mkFA (NPath (name "f")) None false false false false PNone) [7] false false held_here) as [r w'] eqn:E.
  exists w', 4. vm_compute in E. injection E as <- <-. split; [reflexivity|]. split; [vm_compute; reflexivity|vm_compute; discriminate].
Qed.

Print Assumptions C90_write_to_file.
Print Assumptions C90_append_to_file.
Print Assumptions C90_read_from_file.
Print Assumptions C90_descriptor_0_refuted.
Print Assumptions C90_locked_elsewhere.
Print Assumptions C90_descriptor_stays_refuted.
