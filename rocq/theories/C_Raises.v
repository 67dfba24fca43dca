(** C99: only the documented exceptions come out of raw and buffered streams.
    Whatever the system does (errors, short counts, the other processes and threads), whatever
    the arguments and the order of the calls, closed streams included. *)
From Coq Require Import ZArith Ascii String List Bool Lia.
From Verif Require Import M_Base M_Modes M_Registry M_Kernel M_World M_Raw M_Buffered M_BufLines M_Open M_Windows
  M_Text S_Demo S_Text S_Closed C_Text C_Windows S_Raises P_Raises.
Import ListNotations.
Open Scope Z_scope.

Lemma allowed_doc e : documented e -> allowed e.
Proof. intros H. left. exact H. Qed.

Lemma quiet_wp {A} (P : exn -> Prop) (m : M A) w Q : wp sane P m w Q -> wp sane P (quiet m) w (fun _ _ => True).
Proof. intros H. apply wp_bind. eapply wp_post; [exact H|]. intros a w' H' _ _. apply wp_ret; auto. Qed.

Lemma rcall_wp f m w : f_fd f <> Some 0 -> sane w -> wp sane allowed (rcall f m) w (fun _ _ => True).
Proof.
  intros F H.
  assert (A1 : forall n, allowed (EOS n)) by (left; exact Logic.I). assert (A2 : allowed EUnsupported) by (left; exact Logic.I).
  assert (A3 : f_closed f = true -> allowed EValue) by (left; exact Logic.I). assert (A4 : allowed EType) by (left; exact Logic.I).
  assert (A5 : allowed ERuntime) by (left; exact Logic.I). assert (A6 : forall n, allowed (ELocking n)) by (left; exact Logic.I).
  assert (A7 : allowed EBadValue) by (left; exact Logic.I). assert (A8 : allowed EHang) by (right; reflexivity).
  assert (A9 : f_spin f < 0 -> allowed EValue) by (left; exact Logic.I).
  destruct m; cbn [rcall].
  - eapply quiet_wp. exact (raw_size_wp allowed f A1 A3 w H).
  - eapply quiet_wp. exact (raw_tell_wp allowed f A1 A3 w H).
  - eapply quiet_wp. exact (raw_seek_wp allowed f A1 A3 _ _ w H).
  - eapply quiet_wp. exact (raw_read_wp allowed f A1 A2 A3 _ w H).
  - eapply quiet_wp. exact (raw_readinto_wp allowed f A1 A2 A3 _ w A4 H).
  - eapply quiet_wp. exact (raw_write_wp allowed f A1 A2 A3 _ w H).
  - eapply quiet_wp. exact (raw_truncate_wp allowed f A1 A2 A3 _ w H).
  - eapply wp_post; [exact (check_closed_wp allowed f A3 w H)|]. auto.
  - exact (raw_sync_wp allowed f A1 A3 _ _ _ w H).
  - apply (quiet_wp allowed (raw_isatty f) w (fun _ _ => True)). unfold raw_isatty. apply wp_bind. eapply wp_post; [exact (check_closed_wp allowed f A3 w H)|]. intros _ w' _ -> _.
    destruct (fd_of f =? 0) eqn:E; [|apply wp_ret; auto]. apply Z.eqb_eq in E. unfold fd_of in E. destruct (f_fd f); [congruence|discriminate].
  - eapply quiet_wp. exact (raw_lock_file_wp allowed f A1 A2 A3 A5 A6 A7 A8 A9 _ _ _ _ _ w H).
  - exact (raw_unlock_file_wp allowed f A1 A2 A3 A5 A7 _ _ _ w H).
  - eapply wp_mono; [exact (raw_close_wp f w F H)|intros e [n ->]; exact (A1 n)|auto].
Qed.

(** Calls on a raw stream: a documented exception, or a lock_file() waiting for ever. *)
Theorem C99_raw_calls_partial : forall f ms w, f_fd f <> Some 0 -> positions w -> Forall allowed (raw_raised f ms w).
Proof.
  intros f ms. revert f. induction ms as [|m r IH]; intros f w F H; cbn [raw_raised]; [constructor|].
  assert (F' : f_fd (after_call f m) <> Some 0) by (destruct m; exact F).
  pose proof (rcall_wp f m w F H) as G. unfold wp in G. destruct (rcall f m w) as [[u | e] w']; destruct G as [G1 G2]; [exact (IH _ w' F' G1)|].
  destruct e; try (constructor; [exact G2|exact (IH _ w' F' G1)]). constructor; [right; reflexivity|constructor].
Qed.

Lemma as_wp {A} (I : bstate -> Prop) (P : exn -> Prop) (g : A -> bvalue) (m : B A) b Q : wp I P m b Q -> wp I P (as_ g m) b (fun _ _ => True).
Proof. intros H. apply wp_bind. eapply wp_post; [exact H|]. intros a b' H' _ _. apply wp_ret; auto. Qed.

(** One call that does not close. *)
Lemma call_wp (P : exn -> Prop) k m b : (forall n, P (EOS n)) -> P EUnsupported -> (f_closed (b_raw b) = true -> P EValue) -> (forall n, P (EBlocking n)) ->
  sane (b_w b) -> has_method k m -> m <> MClose ->
  (match m with MSeek _ wh => valid_whence wh = false | MRead (Some n) => n < -1 | MReadinto _ _ | MLock _ _ _ _ _ => True | _ => False end -> P EValue) ->
  (match m with MReadinto _ _ => True | _ => False end -> P EType) ->
  (match m with MLock _ _ _ _ _ => True | _ => False end -> (forall n, P (ELocking n)) /\ P EHang) ->
  (match m with MLock _ _ _ _ _ | MUnlock _ _ _ => True | _ => False end -> P ERuntime /\ P EBadValue) ->
  wp (Ib (b_raw b)) P (call k m) b (fun _ _ => True).
Proof.
  intros A1 A2 A3 A4 H HM NC PV PT PL PR. set (f := b_raw b) in *.
  assert (I : Ib f b) by (split; [exact H|reflexivity]).
  destruct m; cbn [call].
  - eapply as_wp. apply (b_read_wp P f A1 A2 A3 A4 k n b); [|exact I]. destruct n as [z|]; [|discriminate]. intros E. apply PV. apply Z.ltb_lt in E. exact E.
  - eapply as_wp. exact (b_read1_wp P f A1 A2 A3 A4 k n b I).
  - eapply as_wp. apply (b_peek_wp P f A1 A2 A3 A4 k n b); [|exact I]. intros ->. apply HM. split; [reflexivity|eexists; reflexivity].
  - eapply as_wp. exact (b_readinto_wp P f A1 A2 A3 A4 k n read1 b (PV Logic.I) (PT Logic.I) I).
  - eapply as_wp. exact (b_readline_wp P f A1 A2 A3 A4 k size b I).
  - eapply as_wp. exact (b_readlines_wp P f A1 A2 A3 A4 k hint b I).
  - eapply as_wp. exact (b_write_wp P f A1 A2 A3 A4 k d b I).
  - eapply as_wp. exact (b_writelines_wp P f A1 A2 A3 A4 k ds b I).
  - eapply as_wp. exact (b_seek_wp P f A1 A2 A3 A4 k offset whence b PV I).
  - eapply as_wp. exact (b_tell_wp P f A1 A3 k b I).
  - eapply as_wp. exact (b_truncate_wp P f A1 A2 A3 A4 k size b I).
  - eapply as_wp. exact (b_flush_wp P f A1 A2 A3 A4 k b I).
  - eapply as_wp. exact (b_fsize_wp P f A1 A2 A3 A4 k b I).
  - eapply as_wp. exact (b_sync_wp P f A1 A2 A3 A4 has_fdatasync k metadata full b I).
  - destruct (PL Logic.I) as [L1 L2]. destruct (PR Logic.I) as [R1 R2]. eapply as_wp.
    exact (b_lock_file_wp P f A1 A2 A3 A4 R1 L1 R2 L2 (fun _ => PV Logic.I) k timeout length offset whence shared b I).
  - destruct (PR Logic.I) as [R1 R2]. eapply as_wp. exact (b_unlock_file_wp P f A1 A2 A3 A4 R1 R2 k length offset whence b I).
  - contradiction.
Qed.

(** One call: what it raises, and the descriptor stays. *)
Lemma call_allowed k m b : f_fd (b_raw b) <> Some 0 -> sane (b_w b) -> has_method k m ->
  sane (b_w (snd (call k m b))) /\ f_fd (b_raw (snd (call k m b))) <> Some 0 /\ forall e, fst (call k m b) = Err e -> allowed e.
Proof.
  intros F H HM.
  assert (D : {m = MClose} + {m <> MClose}) by (destruct m; [right|right|right|right|right|right|right|right|right|right|right|right|right|right|right|right|left]; try reflexivity; discriminate).
  assert (A1 : forall n, allowed (EOS n)) by (left; exact Logic.I). assert (A2 : allowed EUnsupported) by (left; exact Logic.I).
  assert (A3 : f_closed (b_raw b) = true -> allowed EValue) by (left; exact Logic.I). assert (A4 : forall n, allowed (EBlocking n)) by (left; exact Logic.I).
  destruct D as [-> | NC].
  - cbn [call]. unfold as_, bind, ret. destruct (b_close_out allowed (b_raw b) A1 A2 A3 A4 k b F (conj H eq_refl)) as (C1 & C2 & C3).
    destruct (b_close k b) as [[u | e] b']; cbn [fst snd] in *; (split; [exact C1|]); (split; [destruct C2 as [-> | ->]; exact F|]); [discriminate|]. intros e' E. injection E as <-. exact (C3 e eq_refl).
  - pose proof (call_wp allowed k m b A1 A2 A3 A4 H HM NC) as G. unfold wp in G.
    assert (Z : match call k m b with (Ok _, s') => Ib (b_raw b) s' /\ True | (Err e, s') => Ib (b_raw b) s' /\ allowed e end).
    { apply G; intros _; repeat split; try (left; exact Logic.I); try (right; reflexivity); intros; left; exact Logic.I. }
    destruct (call k m b) as [[u | e] b']; destruct Z as [[Z1 Z2] Z3]; cbn [fst snd]; (split; [exact Z1|]); (split; [rewrite Z2; exact F|]); [discriminate|].
    intros e' E. injection E as <-. exact Z3.
Qed.

(** The same on a buffered stream: no loop of pyio runs for ever, no assertion fails. *)
Theorem C99_buffered_calls_partial : forall k ms b, f_fd (b_raw b) <> Some 0 -> positions (b_w b) -> Forall (has_method k) ms ->
  Forall allowed (raised k ms b).
Proof.
  intros k ms. induction ms as [|m r IH]; intros b F H HM; cbn [raised]; [constructor|].
  pose proof (Forall_inv HM) as HM1. pose proof (Forall_inv_tail HM) as HM2.
  pose proof (call_allowed k m b F H HM1) as (G1 & G2 & G3). destruct (call k m b) as [[u | e] b']; cbn [fst snd] in *; [exact (IH b' G2 G1 HM2)|].
  pose proof (G3 e eq_refl) as G4. destruct e; try (constructor; [exact G4|exact (IH b' G2 G1 HM2)]). constructor; [right; reflexivity|constructor].
Qed.

(** With right arguments, calls on an open stream raise nothing but what the system is at fault
    for; and they end. *)
Theorem C99_right_calls_environment_errors : forall k m b, f_closed (b_raw b) = false -> positions (b_w b) -> has_method k m -> right_call m ->
  match fst (call k m b) with Ok _ => True | Err e => environment_error e end.
Proof.
  intros k m b O H HM R.
  pose proof (call_wp environment_error k m b) as G. unfold wp in G.
  assert (Z : match call k m b with (Ok _, s') => Ib (b_raw b) s' /\ True | (Err e, s') => Ib (b_raw b) s' /\ environment_error e end).
  { apply G; clear G; try (intros; exact Logic.I); try assumption; try (rewrite O; discriminate).
    - intros ->. exact R.
    - destruct m as [n|n|n|n r1|n|n|d|ds|o wh| |s| | |x y z|t l o wh sh|l o wh|]; try contradiction; cbn [right_call] in R.
      + destruct n as [n|]; [lia|contradiction].
      + intros E. exfalso. unfold valid_whence in E. apply orb_false_iff in E. destruct E as [E E2]. apply orb_false_iff in E. destruct E as [E0 E1].
        apply Z.eqb_neq in E0. apply Z.eqb_neq in E1. apply Z.eqb_neq in E2. lia.
    - destruct m; try contradiction.
    - destruct m; try contradiction.
    - destruct m; try contradiction. }
  destruct (call k m b) as [[u | e] b']; cbn [fst]; [exact Logic.I|exact (proj2 Z)].
Qed.

(** * Opening *)

Lemma sys_open_wp p fl w : sane w ->
  wp sane os_error (sys_open p fl) w (fun fd w' => In fd (w_newfd w) /\ w_fds w' fd <> None).
Proof.
  intros H. unfold sys_open, wp, bind. rewrite next_io_eq. fold (drawn w).
  pose proof (drawn_sane w H) as D.
  assert (N : w_newfd (drawn w) = w_newfd w) by (unfold drawn; destruct (w_io w); reflexivity).
  assert (G : match (match w_newfd (drawn w) with
      | [] => (Err (EOS EMFILE), drawn w)
      | fd :: fds =>
          match w_fds (drawn w) fd with
          | Some _ => (Err (EOS EMFILE), drawn w)
          | None =>
              match w_names (drawn w) p with
              | None =>
                  if of_creat fl then
                    match w_newino (drawn w) with
                    | [] => (Err (EOS ENOSPC), drawn w)
                    | u :: us =>
                        match w_inodes (drawn w) u with
                        | Some _ => (Err (EOS ENOSPC), drawn w)
                        | None =>
                            let w1 := set_names (drawn w) (upd names_eqb (w_names (drawn w)) p (Some u)) in
                            let w2 := set_newfd (set_newino w1 us) fds in
                            let w3 := upd_ino w2 u (mkIno KReg [] true) in
                            (Ok fd, upd_fd w3 fd (Some (mkOfd u 0 (of_rd fl) (of_wr fl)
                                                              (of_append fl) (of_sync fl) false)))
                        end
                    end
                  else (Err (EOS ENOENT), drawn w)
              | Some u =>
                  match w_inodes (drawn w) u with
                  | None => (Err (EOS ENOENT), drawn w)
                  | Some i =>
                      if of_creat fl && of_excl fl then (Err (EOS EEXIST), drawn w)
                      else if (match n_kind i with KDir => of_wr fl || of_creat fl | _ => false end)
                      then (Err (EOS EISDIR), drawn w)
                      else
                        let w1 := set_newfd (drawn w) fds in
                        let w2 := if of_trunc fl then upd_ino w1 u (mkIno (n_kind i) [] true) else w1 in
                        (Ok fd, upd_fd w2 fd (Some (mkOfd u 0 (of_rd fl) (of_wr fl)
                                                          (of_append fl) (of_sync fl) false)))
                  end
              end
          end
      end : res Z * world) with
      | (Ok a, s') => sane s' /\ In a (w_newfd w) /\ w_fds s' a <> None
      | (Err e, s') => sane s' /\ os_error e
      end).
  { rewrite N. destruct (w_newfd w) as [|fd fds]; [split; [exact D|eexists; reflexivity]|].
    destruct (w_fds (drawn w) fd); [split; [exact D|eexists; reflexivity]|].
    assert (X : forall w0 o, sane w0 -> o_pos o = 0 -> sane (upd_fd w0 fd (Some o)) /\ In fd (fd :: fds) /\ w_fds (upd_fd w0 fd (Some o)) fd <> None).
    { intros w0 o S0 P0. split; [apply sane_fd; [exact S0|lia]|]. split; [left; reflexivity|]. unfold upd_fd. cbn [w_fds set_fds]. unfold upd. rewrite Z.eqb_refl. discriminate. }
    destruct (w_names (drawn w) p) as [u|].
    - destruct (w_inodes (drawn w) u) as [i|]; [|split; [exact D|eexists; reflexivity]].
      destruct (of_creat fl && of_excl fl); [split; [exact D|eexists; reflexivity]|].
      destruct (match n_kind i with KDir => _ | _ => _ end); [split; [exact D|eexists; reflexivity]|]. cbv zeta.
      apply X; [destruct (of_trunc fl); exact D|reflexivity].
    - destruct (of_creat fl); [|split; [exact D|eexists; reflexivity]].
      destruct (w_newino (drawn w)) as [|u us]; [split; [exact D|eexists; reflexivity]|].
      destruct (w_inodes (drawn w) u); [split; [exact D|eexists; reflexivity]|]. cbv zeta. apply X; [exact D|reflexivity]. }
  destruct (match w_io w with [] => IoFull | e :: _ => e end); [exact G|exact G|split; [exact D|eexists; reflexivity]].
Qed.

Lemma fstat_eq fd w : sys_fstat fd w = (match w_fds w fd with
  | Some o => match w_inodes w (o_uid o) with
              | Some i => Ok (o_uid o, n_kind i, Z.of_nat (Datatypes.length (n_data i)))
              | None => Err (EOS EBADF)
              end
  | None => Err (EOS EBADF) end, w).
Proof. unfold sys_fstat, bind, get_fd. destruct (w_fds w fd) as [o|]; [|reflexivity]. destruct (w_inodes w (o_uid o)); reflexivity. Qed.

(** What [raw_init] ends with. *)
Definition inits (r : res unit * rawio * world) : Prop :=
  sane (snd r) /\ f_fd (snd (fst r)) <> Some 0 /\ f_closed (snd (fst r)) = false /\ forall e, fst (fst r) = Err e -> documented e.

Lemma raw_init_inits rk w : sane w -> ~ In 0 (w_newfd w) -> rk_fileno rk <> Some 0 -> rk_handle rk <> Some 0 -> inits (raw_init rk w).
Proof.
  intros H NZ NF NH. unfold raw_init. cbv zeta.
  set (f0 := mkRio None None false (rk_closefd rk) (rk_read rk) (rk_write rk || rk_append rk) (rk_append rk) false (opt_enforced (w_opts w)) (opt_spin (w_opts w))).
  assert (IC : forall e, init_checks rk = Err e -> documented e).
  { intros e. unfold init_checks. cbv zeta. repeat (match goal with |- (if ?c then _ else _) = _ -> _ => destruct c end; [intros X; injection X as <-; exact Logic.I|]). discriminate. }
  destruct (init_checks rk) as [u | e]; [|split; [exact H|split; [discriminate|split; [reflexivity|intros e' X; injection X as <-; exact (IC e eq_refl)]]]].
  (* the descriptor is not 0, and is not a directory when it was opened here *)
  assert (CS : match inner_create_streams f0 rk w with
     | (Ok _, f1, w1) => sane w1 /\ f_fd f1 <> Some 0 /\ f_closed f1 = false /\
          (wraps rk = true \/ match sys_fstat (fd_of f1) w1 with (Ok (_, KDir, _), _) => False | _ => True end)
     | (Err e, f1, w1) => sane w1 /\ f_fd f1 <> Some 0 /\ f_closed f1 = false /\ documented e end).
  { unfold inner_create_streams. cbv zeta.
    set (with_fd := fun fd u => mkRio (Some fd) u (f_closed f0) (f_closefd f0) (f_readable f0) (f_writable f0) (f_append f0) (f_seekable f0) (f_enforced f0) (f_spin f0)).
    assert (FI : forall fd, fd <> 0 -> wraps rk = true -> match (match sys_fstat fd w with (Ok (u, _, _), w') => (Ok tt, with_fd fd (Some u), w') | (Err e, w') => (Err e, with_fd fd None, w') end : res unit * rawio * world) with
       | (Ok _, f1, w1) => sane w1 /\ f_fd f1 <> Some 0 /\ f_closed f1 = false /\
          (wraps rk = true \/ match sys_fstat (fd_of f1) w1 with (Ok (_, KDir, _), _) => False | _ => True end)
       | (Err e, f1, w1) => sane w1 /\ f_fd f1 <> Some 0 /\ f_closed f1 = false /\ documented e end).
    { intros fd Nz Wr. pose proof (fstat_wp fd w H) as G. unfold wp in G. destruct (sys_fstat fd w) as [[[[u0 k0] z0] | e] w1]; destruct G as [G1 G2].
      - split; [exact G1|]. split; [cbn [with_fd f_fd]; congruence|]. split; [reflexivity|left; exact Wr].
      - split; [exact G1|]. split; [cbn [with_fd f_fd]; congruence|]. split; [reflexivity|]. destruct G2 as [n ->]. exact Logic.I. }
    destruct (rk_handle rk) as [h|] eqn:Eh.
    { apply FI; [congruence|]. unfold wraps. rewrite Eh. unfold truthy at 2. apply orb_true_iff. right. apply negb_true_iff, Z.eqb_neq. congruence. }
    destruct (rk_fileno rk) as [fn|] eqn:Ef.
    { apply FI; [congruence|]. unfold wraps. rewrite Ef. unfold truthy at 1. apply orb_true_iff. left. apply negb_true_iff, Z.eqb_neq. congruence. }
    destruct (rk_path rk) as [|p|z].
    { split; [exact H|]. split; [discriminate|]. split; [reflexivity|exact Logic.I]. }
    2:{ split; [exact H|]. split; [discriminate|]. split; [reflexivity|exact Logic.I]. }
    pose proof (sys_open_wp p (unix_open_flags rk) w H) as G. unfold wp in G. destruct (sys_open p (unix_open_flags rk) w) as [[fd | e] w1]; destruct G as [G1 G2].
    2:{ split; [exact G1|]. split; [discriminate|]. split; [reflexivity|]. destruct G2 as [n ->]. exact Logic.I. }
    destruct G2 as [G2 _]. assert (Nz : fd <> 0) by (intros ->; exact (NZ G2)).
    rewrite fstat_eq. destruct (w_fds w1 fd) as [o|] eqn:Eo.
    2:{ split; [exact G1|]. split; [cbn [with_fd f_fd]; congruence|]. split; [reflexivity|exact Logic.I]. }
    destruct (w_inodes w1 (o_uid o)) as [i|] eqn:Ei.
    2:{ split; [exact G1|]. split; [cbn [with_fd f_fd]; congruence|]. split; [reflexivity|exact Logic.I]. }
    assert (K : n_kind i <> KDir -> match (match sys_set_inheritable fd (rk_inheritable rk) w1 with
              | (Ok _, w3) => match sys_fstat fd w3 with (Ok (u, _, _), w') => (Ok tt, with_fd fd (Some u), w') | (Err e, w') => (Err e, with_fd fd None, w') end
              | (Err e, w3) => (Err e, with_fd fd None, w3)
              end : res unit * rawio * world) with
       | (Ok _, f1, w1) => sane w1 /\ f_fd f1 <> Some 0 /\ f_closed f1 = false /\
          (wraps rk = true \/ match sys_fstat (fd_of f1) w1 with (Ok (_, KDir, _), _) => False | _ => True end)
       | (Err e, f1, w1) => sane w1 /\ f_fd f1 <> Some 0 /\ f_closed f1 = false /\ documented e end).
    { intros NK. unfold sys_set_inheritable. rewrite Eo. set (o2 := mkOfd (o_uid o) (o_pos o) (o_rd o) (o_wr o) (o_app o) (o_sync o) (rk_inheritable rk)).
      set (w3 := upd_fd w1 fd (Some o2)).
      assert (S3 : sane w3) by (apply sane_fd; [exact G1|exact (G1 fd o Eo)]).
      assert (F3 : sys_fstat fd w3 = (Ok (o_uid o, n_kind i, Z.of_nat (Datatypes.length (n_data i))), w3)).
      { rewrite fstat_eq. unfold w3, upd_fd. cbn [w_fds set_fds w_inodes]. unfold upd. rewrite Z.eqb_refl. unfold o2 at 1. cbn [o_uid]. rewrite Ei. reflexivity. }
      rewrite F3. split; [exact S3|]. split; [cbn [with_fd f_fd]; congruence|]. split; [reflexivity|]. right.
      change (fd_of (with_fd fd (Some (o_uid o)))) with fd. rewrite F3. destruct (n_kind i); [exact Logic.I|contradiction|exact Logic.I]. }
    revert K. destruct (n_kind i); intros K; [exact (K ltac:(discriminate))| |exact (K ltac:(discriminate))].
    split; [exact G1|]. split; [cbn [with_fd f_fd]; congruence|]. split; [reflexivity|exact Logic.I]. }
  destruct (inner_create_streams f0 rk w) as [[[x | e] f1] w1]; destruct CS as (C1 & C2 & C3 & C4).
  2:{ split; [exact C1|]. split; [exact C2|]. split; [exact C3|]. intros e' X. injection X as <-. exact C4. }
  rewrite fstat_eq in C4. rewrite fstat_eq. destruct (w_fds w1 (fd_of f1)) as [o|].
  2:{ split; [exact C1|]. split; [exact C2|]. split; [exact C3|]. intros e' X. injection X as <-. exact Logic.I. }
  destruct (w_inodes w1 (o_uid o)) as [i|].
  2:{ split; [exact C1|]. split; [exact C2|]. split; [exact C3|]. intros e' X. injection X as <-. exact Logic.I. }
  assert (FIN : forall k : kind, inits (let f2 := mkRio (f_fd f1) (f_uid f1) false (f_closefd f1) (f_readable f1) (f_writable f1)
                              (f_append f1) (match k with KReg => true | _ => false end)
                              (f_enforced f1) (f_spin f1) in
              if rk_append rk then
                match raw_seek f2 0 2 w1 with
                | (Ok _, w3) => (Ok tt, f2, w3)
                | (Err (EOS e), w3) => if e =? ESPIPE then (Ok tt, f2, w3) else (Err (EOS e), f2, w3)
                | (Err e, w3) => (Err e, f2, w3)
                end
              else (Ok tt, f2, w1))).
  { intros k. cbv zeta. set (f2 := mkRio _ _ _ _ _ _ _ _ _ _). destruct (rk_append rk); [|split; [exact C1|split; [exact C2|split; [reflexivity|discriminate]]]].
    assert (A1 : forall n, documented (EOS n)) by (intros; exact Logic.I).
    pose proof (raw_seek_wp documented f2 A1 (fun _ => Logic.I) 0 2 w1 C1) as G. unfold wp in G.
    destruct (raw_seek f2 0 2 w1) as [[z | e] w3]; destruct G as [G1 G2]; [split; [exact G1|split; [exact C2|split; [reflexivity|discriminate]]]|].
    destruct e; try (split; [exact G1|split; [exact C2|split; [reflexivity|intros e' X; injection X as <-; exact G2]]]).
    destruct (errno =? ESPIPE); (split; [exact G1|split; [exact C2|split; [reflexivity|]]]); [discriminate|intros e' X; injection X as <-; exact Logic.I]. }
  revert C4. destruct (n_kind i) eqn:K; intros C4.
  - exact (FIN KReg).
  - destruct C4 as [-> | []]. split; [exact C1|]. split; [exact C2|]. split; [exact C3|]. intros e' X. injection X as <-. exact Logic.I.
  - exact (FIN KPipe).
Qed.

Lemma parse_mode_errors py_u name mode fn h c e : parse_mode py_u name mode fn h c = Err e -> e = EBadValue.
Proof.
  unfold parse_mode. cbv zeta. destruct (str_eqb _ _).
  - unfold parse_standard_args. cbv zeta. repeat (match goal with |- (if ?c then _ else _) = _ -> _ => destruct c end; [intros X; injection X as <-; reflexivity|]).
    destruct name as [|p|n]; [discriminate|discriminate|]. destruct fn; [intros X; injection X as <-; reflexivity|discriminate].
  - destruct (str_eqb _ _); [|intros X; injection X as <-; reflexivity].
    unfold parse_advanced_args. cbv zeta. destruct (_ || _); [intros X; injection X as <-; reflexivity|discriminate].
Qed.
Lemma parse_mode_fileno py_u name mode fn h c rk ek : parse_mode py_u name mode fn h c = Ok (rk, ek) ->
  name <> NInt 0 -> fn <> Some 0 -> h <> Some 0 -> rk_fileno rk <> Some 0 /\ rk_handle rk <> Some 0.
Proof.
  unfold parse_mode. cbv zeta. destruct (str_eqb _ _).
  - unfold parse_standard_args. cbv zeta. repeat (match goal with |- (if ?c then _ else _) = _ -> _ => destruct c end; [discriminate|]).
    destruct name as [|p|n].
    + intros X A B C. injection X as <- <-. cbn [rk_fileno rk_handle]. auto.
    + intros X A B C. injection X as <- <-. cbn [rk_fileno rk_handle]. auto.
    + destruct fn; [discriminate|]. intros X A B C. injection X as <- <-. cbn [rk_fileno rk_handle]. split; [congruence|auto].
  - destruct (str_eqb _ _); [|discriminate].
    unfold parse_advanced_args. cbv zeta. destruct (_ || _); [discriminate|]. intros X A B C. injection X as <- <-. cbn [rk_fileno rk_handle]. auto.
Qed.

Lemma prelude_errors py_u a e : rsopen_prelude py_u (a_name a) (a_mode a) (a_fileno a) (a_handle a) (a_closefd a)
          (a_opener a) (a_thread_safe a) (a_mutex a) (a_enc a) (a_errs a) (a_nl a) = Err e -> e = EBadValue.
Proof.
  unfold rsopen_prelude. destruct (_ && _); [intros X; injection X as <-; reflexivity|].
  destruct (parse_mode _ _ _ _ _ _) as [[rk ek] | e'] eqn:Ep; [|intros X; injection X as <-; exact (parse_mode_errors _ _ _ _ _ _ _ Ep)].
  cbv zeta.
  assert (T : forall rk', (if ek_truncate ek && negb (rk_write rk' || rk_append rk') then Err EBadValue
          else
          let truncate' :=
            if ek_truncate ek && (truthy (rk_fileno rk') || truthy (rk_handle rk'))
            then false else ek_truncate ek in
          if ek_binary ek && ek_text ek then Err EBadValue
          else if ek_binary ek && a_enc a then Err EBadValue
          else if ek_binary ek && a_errs a then Err EBadValue
          else if ek_binary ek && a_nl a then Err EBadValue
          else Ok (rk', mkExt truncate' (ek_binary ek) (ek_text ek))) = Err e -> e = EBadValue).
  { intros rk'. cbv zeta. repeat (match goal with |- (if ?c then _ else _) = _ -> _ => destruct c end; [intros X; injection X as <-; reflexivity|]). discriminate. }
  destruct (a_opener a) as [fd|]; [|exact (T rk)]. destruct (truthy (rk_fileno rk)); [intros X; injection X as <-; reflexivity|].
  destruct (fd <? 0); [intros X; injection X as <-; reflexivity|exact (T _)].
Qed.
Lemma prelude_fileno py_u a rk ek : rsopen_prelude py_u (a_name a) (a_mode a) (a_fileno a) (a_handle a) (a_closefd a)
          (a_opener a) (a_thread_safe a) (a_mutex a) (a_enc a) (a_errs a) (a_nl a) = Ok (rk, ek) ->
  a_name a <> NInt 0 -> a_fileno a <> Some 0 -> a_handle a <> Some 0 -> a_opener a <> Some 0 ->
  rk_fileno rk <> Some 0 /\ rk_handle rk <> Some 0.
Proof.
  intros E N1 N2 N3 N4. revert E. unfold rsopen_prelude. destruct (_ && _); [discriminate|].
  destruct (parse_mode _ _ _ _ _ _) as [[rk0 ek0] | e'] eqn:Ep; [|discriminate].
  destruct (parse_mode_fileno _ _ _ _ _ _ _ _ Ep N1 N2 N3) as [F1 F2]. cbv zeta.
  assert (T : forall rk', rk_fileno rk' <> Some 0 -> rk_handle rk' <> Some 0 -> (if ek_truncate ek0 && negb (rk_write rk' || rk_append rk') then Err EBadValue
          else
          let truncate' :=
            if ek_truncate ek0 && (truthy (rk_fileno rk') || truthy (rk_handle rk'))
            then false else ek_truncate ek0 in
          if ek_binary ek0 && ek_text ek0 then Err EBadValue
          else if ek_binary ek0 && a_enc a then Err EBadValue
          else if ek_binary ek0 && a_errs a then Err EBadValue
          else if ek_binary ek0 && a_nl a then Err EBadValue
          else Ok (rk', mkExt truncate' (ek_binary ek0) (ek_text ek0))) = Ok (rk, ek) -> rk_fileno rk <> Some 0 /\ rk_handle rk <> Some 0).
  { intros rk' A B. cbv zeta. repeat (match goal with |- (if ?c then _ else _) = _ -> _ => destruct c end; [discriminate|]). intros X. injection X as <- _. auto. }
  destruct (a_opener a) as [fd|]; [|exact (T rk0 F1 F2)]. destruct (truthy (rk_fileno rk0)); [discriminate|].
  destruct (fd <? 0); [discriminate|]. apply T; cbn [rk_fileno rk_handle]; [congruence|exact F2].
Qed.

Lemma open_body_wp a ek f w : f_fd f <> Some 0 -> (forall e, a_text_error a = Some e -> documented e) -> sane w ->
  wp sane allowed (open_body a ek f) w (fun s _ => st_raw s = f).
Proof.
  intros F TE H.
  assert (A1 : forall n, allowed (EOS n)) by (left; exact Logic.I). assert (A2 : allowed EUnsupported) by (left; exact Logic.I).
  assert (A3 : f_closed f = true -> allowed EValue) by (left; exact Logic.I). assert (A4 : allowed EType) by (left; exact Logic.I).
  assert (A5 : allowed ERuntime) by (left; exact Logic.I). assert (A6 : forall n, allowed (ELocking n)) by (left; exact Logic.I).
  assert (A7 : allowed EBadValue) by (left; exact Logic.I). assert (A8 : allowed EHang) by (right; reflexivity).
  assert (A9 : f_spin f < 0 -> allowed EValue) by (left; exact Logic.I).
  unfold open_body. apply wp_bind. apply wp_post with (Q := fun _ _ => True).
  { destruct (f_seekable f); [|apply wp_ret; auto]. apply wp_bind. apply wp_post with (Q := fun _ _ => True).
    - destruct (a_locking a); [|apply wp_ret; auto]. apply wp_bind.
      eapply wp_post; [exact (raw_lock_file_wp allowed f A1 A2 A3 A5 A6 A7 A8 A9 _ _ _ _ _ w H)|]. intros _ w1 H1 _ _. apply wp_ret; auto.
    - intros _ w1 H1 _ _. destruct (ek_truncate ek); [|apply wp_ret; auto]. apply wp_bind.
      eapply wp_post; [exact (raw_truncate_wp allowed f A1 A2 A3 (Some 0) w1 H1)|]. intros _ w2 H2 _ _. apply wp_ret; auto. }
  intros _ w1 H1 _ _. cbv zeta. set (b0 := match a_buffering a with None => -1 | Some b => b end).
  assert (Fz : (fd_of f =? 0) = false) by (apply Z.eqb_neq; unfold fd_of; destruct (f_fd f); [congruence|discriminate]).
  apply wp_bind. apply wp_post with (Q := fun line _ => line = true \/ b0 < 0 \/ (line = false /\ 0 <= b0)).
  { destruct (b0 =? 1); [apply wp_ret; auto|]. destruct (b0 <? 0) eqn:E.
    - apply Z.ltb_lt in E. unfold raw_isatty. apply wp_bind. eapply wp_post; [exact (check_closed_wp allowed f A3 w1 H1)|]. intros _ w' _ -> _. rewrite Fz. apply wp_ret; auto.
    - apply Z.ltb_ge in E. apply wp_ret; auto. }
  intros line w2 H2 Hl _. apply wp_bind. apply wp_post with (Q := fun b _ => 0 <= b).
  { unfold buffer_size. rewrite Fz. destruct ((if line then -1 else b0) <? 0) eqn:E.
    - unfold wp. destruct (w_fds w2 (fd_of f)); (split; [exact H2|]); [|unfold DEFAULT_BUFFER_SIZE; lia]. destruct (1 <? w_blk w2) eqn:E1; [apply Z.ltb_lt in E1; lia|unfold DEFAULT_BUFFER_SIZE; lia].
    - apply Z.ltb_ge in E. apply wp_ret; auto. }
  intros b w3 H3 Hb _. cbv beta in Hb. destruct (b <? 0) eqn:E; [apply Z.ltb_lt in E; lia|].
  destruct (b =? 0). { destruct (ek_binary ek); [apply wp_ret; auto|apply wp_raise; auto]. }
  apply wp_bind. apply wp_post with (Q := fun _ _ => True).
  { unfold make_buffer. destruct (f_readable f && f_writable f).
    - apply wp_bind. eapply wp_post; [exact (check_seekable_wp allowed f A2 A3 w3 H3)|]. intros _ w4 H4 _ _. apply wp_ret; auto.
    - destruct (f_writable f); [apply wp_ret; auto|]. destruct (f_readable f); [apply wp_ret; auto|apply wp_raise; auto]. }
  intros l w4 H4 _ _. destruct (ek_binary ek); [apply wp_ret; auto|].
  apply wp_bind. apply wp_post with (Q := fun _ _ => True).
  { unfold make_text. destruct (a_text_error a) as [e|]; [apply wp_raise; [exact H4|left; exact (TE e eq_refl)]|].
    destruct (f_seekable f && f_writable f); [|apply wp_ret; auto]. apply wp_bind.
    eapply wp_post; [exact (raw_tell_wp allowed f A1 A3 w4 H4)|]. intros _ w5 H5 _ _. apply wp_ret; auto. }
  intros _ w5 H5 _ _. apply wp_ret; auto.
Qed.

Lemma rsopen_wp py_u a w : no_zero a w -> (forall e, a_text_error a = Some e -> documented e) -> sane w ->
  wp sane allowed (rsopen py_u a) w (fun s _ => f_fd (st_raw s) <> Some 0).
Proof.
  intros (N1 & N2 & N3 & N4 & NZ) TE H. unfold rsopen.
  destruct (rsopen_prelude _ _ _ _ _ _ _ _ _ _ _ _) as [[rk ek] | e] eqn:Ep.
  2:{ apply wp_raise; [exact H|]. rewrite (prelude_errors _ _ _ Ep). left. exact Logic.I. }
  destruct (prelude_fileno _ _ _ _ Ep N1 N2 N3 N4) as [F1 F2].
  pose proof (raw_init_inits rk w H NZ F1 F2) as (I1 & I2 & I3 & I4). apply wp_bind. unfold wp at 1, raw_open.
  destruct (raw_init rk w) as [[[u | e] f] w1]; cbn [fst snd] in *.
  2:{ split; [|left; exact (I4 e eq_refl)]. pose proof (raw_close_wp f w1 I2 I1) as C. unfold wp in C. destruct (raw_close f w1) as [[x | y] w2]; exact (proj1 C). }
  split; [exact I1|]. intros _. unfold wp, open_wrap. pose proof (open_body_wp a ek f w1 I2 TE I1) as G. unfold wp in G.
  destruct (open_body a ek f w1) as [[s | e] w2]; destruct G as [G1 G2]; [split; [exact G1|rewrite G2; exact I2]|].
  pose proof (raw_close_wp f w2 I2 G1) as C. unfold wp in C.
  assert (K : match (match raw_close f w2 with (Ok _, w'') => (Err e, w'') | (Err e', w'') => (Err e', w'') end : res stream * world) with
              | (Ok a0, s') => sane s' /\ f_fd (st_raw a0) <> Some 0 | (Err e0, s') => sane s' /\ allowed e0 end).
  { destruct (raw_close f w2) as [[x | y] w3]; destruct C as [C1 C2]; (split; [exact C1|]); [exact G2|]. destruct C2 as [n ->]. left. exact Logic.I. }
  destruct e; try exact K. split; [exact G1|exact G2].
Qed.

(** rsopen() raises documented exceptions only (given that the constructor of the text layer does). *)
Theorem C99_opening_partial : forall py_u a w e w', no_zero a w -> (forall e, a_text_error a = Some e -> documented e) -> positions w ->
  rsopen py_u a w = (Err e, w') -> allowed e.
Proof.
  intros py_u a w e w' NZ TE H E. pose proof (rsopen_wp py_u a w NZ TE H) as G. unfold wp in G. rewrite E in G. exact (proj2 G).
Qed.

(** From the opening of a stream to its last use. *)
Theorem C99_sessions_partial : forall py_u a w s w', no_zero a w -> (forall e, a_text_error a = Some e -> documented e) -> positions w ->
  rsopen py_u a w = (Ok s, w') ->
  (forall ms, Forall allowed (raw_raised (st_raw s) ms w')) /\
  (forall k ms, buffer_kind (st_layer s) = Some k -> Forall (has_method k) ms -> Forall allowed (raised k ms (fresh (st_raw s) (st_bufsize s) w'))).
Proof.
  intros py_u a w s w' NZ TE H E. pose proof (rsopen_wp py_u a w NZ TE H) as G. unfold wp in G. rewrite E in G. destruct G as [G1 G2]. split.
  - intros ms. exact (C99_raw_calls_partial (st_raw s) ms w' G2 G1).
  - intros k ms _ HM. exact (C99_buffered_calls_partial k ms (fresh (st_raw s) (st_bufsize s) w') G2 G1 HM).
Qed.

(** * Where the policy fails *)

(** "Opening, then any calls: documented exceptions only." *)
Definition policy : Prop := forall py_u a w, (forall e, a_text_error a = Some e -> documented e) -> positions w ->
  match rsopen py_u a w with
  | (Ok s, w') => forall ms, Forall allowed (raw_raised (st_raw s) ms w')
  | (Err e, _) => allowed e
  end.

(** Descriptor 0, as of a program started with its standard input closed, open for reading on file "f". *)
Definition zero_world : world := upd_fd (demo [1; 2] [] [] []) 0 (Some (mkOfd (1, 10) 0 true false false false false)).
(** rsopen(fileno=0, mode="rb", buffering=..., locking=False) *)
Definition zero_args (buffering : option Z) : openargs :=
  mkOA NNone (name "rb") (Some 0) None true None buffering false PNone false false false false false None.

Lemma zero_positions : positions zero_world.
Proof.
  intros fd o. unfold zero_world, upd_fd. cbn [w_fds set_fds]. unfold upd. destruct (0 =? fd); [|discriminate]. intros E. injection E as <-. cbn [o_pos]. lia.
Qed.

(** close() of a stream on descriptor 0 is an AssertionError ([assert data] in the registry). *)
Theorem C99_policy_refuted : ~ policy.
Proof.
  intros H. pose proof (H true (zero_args (Some 100)) zero_world ltac:(discriminate) zero_positions) as G.
  destruct (rsopen true (zero_args (Some 100)) zero_world) as [[s | e] w'] eqn:E.
  - specialize (G [RmClose]).
    assert (X : match rsopen true (zero_args (Some 100)) zero_world with (Ok s, w') => raw_raised (st_raw s) [RmClose] w' | _ => [] end = [EAssert]) by (vm_compute; reflexivity).
    rewrite E in X. rewrite X in G. inversion G as [|x l [D|D] G2]; [exact D|discriminate].
  - assert (X : match fst (rsopen true (zero_args (Some 100)) zero_world) with Ok _ => True | Err _ => False end) by (vm_compute; exact Logic.I).
    rewrite E in X. exact X.
Qed.
(** With the default buffering the opening itself fails an assertion ([assert self._fileno]). *)
Theorem C99_opening_zero_refuted : exists w', rsopen true (zero_args None) zero_world = (Err EAssert, w').
Proof.
  assert (X : fst (rsopen true (zero_args None) zero_world) = Err EAssert) by (vm_compute; reflexivity).
  destruct (rsopen true (zero_args None) zero_world) as [r w']. cbn [fst] in X. subst r. exists w'. reflexivity.
Qed.

(** "readinto() with a right argument raises environment errors only." *)
Definition readinto_policy : Prop := forall k b n, f_closed (b_raw b) = false -> positions (b_w b) -> 0 <= n -> 0 < b_size b ->
  match fst (call k (MReadinto n false) b) with Ok _ => True | Err e => environment_error e end.

Definition demo_in (size : Z) (data : list Z) (io : list ioev) : bstate :=
  let '(f, w) := demo_open "f" true false false (demo data io [] []) in fresh f size w.
Lemma demo_in_positions size data io : positions (b_w (demo_in size data (IoFull :: io))).
Proof.
  intros fd o. unfold demo_in. cbn. unfold upd. destruct (3 =? fd); [|discriminate]. intros E. injection E as <-. cbn. lia.
Qed.
(** A short read, then the rest is read ahead: more bytes are at hand than the place left, and
    storing them all is a ValueError (of memoryview). *)
Theorem C99_readinto_value_error_refuted : ~ readinto_policy.
Proof.
  intros H. specialize (H BReader (demo_in 4 [1; 2; 3; 4; 5; 6; 7; 8] [IoFull; IoShort 3]) 6 ltac:(vm_compute; reflexivity) (demo_in_positions _ _ _) ltac:(lia) ltac:(vm_compute; reflexivity)).
  vm_compute in H. exact H.
Qed.
(** When the stream would block: a TypeError (len(None)). *)
Theorem C99_readinto_type_error_refuted : fst (call BReader (MReadinto 6 false) (demo_in 4 [1; 2; 3; 4; 5; 6; 7; 8] [IoFull; IoErr EAGAIN])) = Err EType.
Proof. vm_compute. reflexivity. Qed.

(** On windows, a wrong whence is a KeyError. *)
Theorem C99_windows_refuted : forall v off wh x, v_closed v = false -> wh < 0 \/ 2 < wh ->
  exists e, fst (v_seek v off wh x) = Err e /\ ~ allowed e.
Proof. intros v off wh x C W. exists EKey. rewrite (C45_bad_whence v off wh x C W). split; [reflexivity|]. intros [D | D]; [exact D|discriminate]. Qed.

(** On text streams, tell() may fail an assertion. *)
Theorem C99_text_refuted : exists c t e, fst ((t_next c ;; t_size c ;; t_tell exact_guess c) t) = Err e /\ ~ allowed e.
Proof.
  destruct C47_tell_after_size_assert_refuted as (c & t & E). exists c, t, EAssert. split; [exact E|]. intros [D | D]; [exact D|discriminate].
Qed.

(** * Examples *)

(** A session with failures of all sorts. *)
Example C99_example :
  raised BReader [MRead (Some 2); MRead (Some (-5)); MSeek 0 7; MSeek (-1) 0; MWrite [1]; MReadline (-1); MLock PBad PNone PNone 0 SNone; MLock (PInt 0) PNone PNone 0 SNone;
                  MLock (PInt 0) PNone PNone 0 SNone; MRead None; MClose; MTell]
    (demo_in 4 [1; 2; 3; 4; 5; 6; 7; 8] [IoFull; IoErr EIO])
  = [EOS EIO; EValue; EValue; EOS EINVAL; EUnsupported; EBadValue; ERuntime; EValue].
Proof. vm_compute. reflexivity. Qed.
Example C99_raw_example :
  let '(f, w) := demo_open "f" true true false (demo [1; 2; 3] [] [] []) in
  raw_raised f [RmRead None; RmTruncate (Some (-1)); RmSeek 0 9; RmUnlock PNone PNone 0; RmIsatty; RmClose; RmClose; RmRead None] w
  = [EOS EINVAL; EOS EINVAL; EValue].
Proof. vm_compute. reflexivity. Qed.
(** The hypotheses of the theorem on sessions hold of the usual opening. *)
Example C99_session_example :
  let a := mkOA (NPath (name "f")) (name "rb") None None true None None true PNone false false false false false None in
  let w := demo [1; 2] [] [] [] in
  no_zero a w /\ positions w /\ exists s w', rsopen true a w = (Ok s, w') /\ buffer_kind (st_layer s) = Some BReader.
Proof.
  cbv zeta. split.
  { repeat split; try discriminate. cbn. intros [E|[E|[E|[]]]]; discriminate. }
  split; [intros fd o E; discriminate|]. eexists _, _. split; [vm_compute; reflexivity|reflexivity].
Qed.
(** Right calls that the system lets down. *)
Example C99_right_example :
  let b := demo_in 4 [1; 2; 3; 4; 5; 6; 7; 8] [IoFull; IoErr EIO] in
  f_closed (b_raw b) = false /\ right_call (MRead (Some 3)) /\ fst (call BReader (MRead (Some 3)) b) = Err (EOS EIO).
Proof. vm_compute. repeat split; discriminate. Qed.

Print Assumptions C99_raw_calls_partial.
Print Assumptions C99_buffered_calls_partial.
Print Assumptions C99_right_calls_environment_errors.
Print Assumptions C99_opening_partial.
Print Assumptions C99_sessions_partial.
Print Assumptions C99_policy_refuted.
Print Assumptions C99_opening_zero_refuted.
Print Assumptions C99_readinto_value_error_refuted.
Print Assumptions C99_readinto_type_error_refuted.
Print Assumptions C99_windows_refuted.
Print Assumptions C99_text_refuted.
