(** Which exceptions the calls raise, and why no loop runs out of turns: lemmas for C99.
    [wp I P m s Q]: from [s], the computation [m] keeps [I], and either gives a value
    satisfying [Q] or raises an exception satisfying [P]. *)
From Coq Require Import ZArith List Bool Lia.
From Verif Require Import M_Base M_Modes M_Registry M_Kernel M_World M_Raw M_Buffered M_BufLines.
Import ListNotations.
Open Scope Z_scope.

Definition wp {S A} (I : S -> Prop) (P : exn -> Prop) (m : comp S A) (s : S) (Q : A -> S -> Prop) : Prop :=
  match m s with
  | (Ok a, s') => I s' /\ Q a s'
  | (Err e, s') => I s' /\ P e
  end.

Lemma wp_ret {S A} (I : S -> Prop) P (a : A) s (Q : A -> S -> Prop) : I s -> Q a s -> wp I P (ret a) s Q.
Proof. split; assumption. Qed.
Lemma wp_raise {S A} (I : S -> Prop) (P : exn -> Prop) e s (Q : A -> S -> Prop) : I s -> P e -> wp I P (raise e) s Q.
Proof. split; assumption. Qed.
Lemma wp_bind {S A B} (I : S -> Prop) P (m : comp S A) (k : A -> comp S B) s (Q : B -> S -> Prop) :
  wp I P m s (fun a s' => I s' -> wp I P (k a) s' Q) -> wp I P (bind m k) s Q.
Proof. unfold wp, bind. destruct (m s) as [[a | e] s1]; [intros [H1 H2]; exact (H2 H1)|tauto]. Qed.
Lemma wp_mono {S A} (I : S -> Prop) (P P' : exn -> Prop) (m : comp S A) s (Q Q' : A -> S -> Prop) :
  wp I P m s Q -> (forall e, P e -> P' e) -> (forall a s', I s' -> Q a s' -> Q' a s') -> wp I P' m s Q'.
Proof. unfold wp. destruct (m s) as [[a | e] s1]; intros [H1 H2] HP HQ; split; auto. Qed.
Lemma wp_post {S A} (I : S -> Prop) (P : exn -> Prop) (m : comp S A) s (Q Q' : A -> S -> Prop) :
  wp I P m s Q -> (forall a s', I s' -> Q a s' -> Q' a s') -> wp I P m s Q'.
Proof. intros H G. exact (wp_mono I P P m s Q Q' H (fun e h => h) G). Qed.
Lemma wp_finally {S A} (I : S -> Prop) (P : exn -> Prop) (m : comp S A) (k : comp S unit) s (Q : A -> S -> Prop) :
  wp I P m s Q -> (forall s', I s' -> wp I P k s' (fun _ _ => True)) -> wp I P (finally m k) s (fun _ _ => True).
Proof.
  unfold wp, finally. destruct (m s) as [[a | e] s1]; intros [H1 H2] K; specialize (K s1 H1); destruct (k s1) as [[x | e'] s2]; tauto.
Qed.
Lemma wp_if {S A} (I : S -> Prop) P (c : bool) (m1 m2 : comp S A) s (Q : A -> S -> Prop) :
  (c = true -> wp I P m1 s Q) -> (c = false -> wp I P m2 s Q) -> wp I P (if c then m1 else m2) s Q.
Proof. destruct c; auto. Qed.

(** * The world *)

(** File positions are not negative. *)
Definition sane (w : world) : Prop := forall fd o, w_fds w fd = Some o -> 0 <= o_pos o.

(** What descriptor [fd] can still deliver. *)
Definition rest (fd : Z) (w : world) : nat :=
  match w_fds w fd with
  | None => O
  | Some o => match w_inodes w (o_uid o) with
              | None => O
              | Some i => match n_kind i with
                          | KPipe => length (n_data i)
                          | _ => length (skipn (Z.to_nat (o_pos o)) (n_data i))
                          end
              end
  end.
Definition fsize (fd : Z) (w : world) : option Z :=
  match w_fds w fd with
  | None => None
  | Some o => match w_inodes w (o_uid o) with None => None | Some i => Some (Z.of_nat (length (n_data i))) end
  end.

Lemma uid_eqb_refl u : uid_eqb u u = true.
Proof. unfold uid_eqb. now rewrite !Z.eqb_refl. Qed.

Lemma sane_io w x : sane w -> sane (set_io w x).
Proof. intros H. exact H. Qed.
Lemma sane_ino w u i : sane w -> sane (upd_ino w u i).
Proof. intros H. exact H. Qed.
Lemma sane_fd w fd o : sane w -> 0 <= o_pos o -> sane (upd_fd w fd (Some o)).
Proof.
  intros H P fd' o'. unfold upd_fd. cbn [w_fds set_fds]. unfold upd. destruct (fd =? fd'); [|apply H].
  intros E. injection E as <-. exact P.
Qed.
Lemma sane_fd_none w fd : sane w -> sane (upd_fd w fd None).
Proof.
  intros H fd' o'. unfold upd_fd. cbn [w_fds set_fds]. unfold upd. destruct (fd =? fd'); [discriminate|apply H].
Qed.

Lemma next_io_eq w : next_io w = (Ok (match w_io w with [] => IoFull | e :: _ => e end), match w_io w with [] => w | _ :: r => set_io w r end).
Proof. unfold next_io. destruct (w_io w); reflexivity. Qed.

Lemma rest_io fd w x : rest fd (set_io w x) = rest fd w.
Proof. reflexivity. Qed.

(** The world after the outcome of a system call has been drawn. *)
Definition drawn (w : world) : world := match w_io w with [] => w | _ :: r => set_io w r end.
Lemma drawn_fds w : w_fds (drawn w) = w_fds w.
Proof. unfold drawn. destruct (w_io w); reflexivity. Qed.
Lemma drawn_inodes w : w_inodes (drawn w) = w_inodes w.
Proof. unfold drawn. destruct (w_io w); reflexivity. Qed.
Lemma drawn_sane w : sane w -> sane (drawn w).
Proof. unfold drawn. destruct (w_io w); intros H; exact H. Qed.
Lemma drawn_rest fd w : rest fd (drawn w) = rest fd w.
Proof. unfold drawn. destruct (w_io w); reflexivity. Qed.

Definition os_error (e : exn) : Prop := exists n, e = EOS n.

Lemma get_fd_wp fd w : sane w ->
  wp sane os_error (get_fd fd) w (fun oi w' => w' = w /\ w_fds w fd = Some (fst oi) /\ w_inodes w (o_uid (fst oi)) = Some (snd oi)).
Proof.
  intros H. unfold wp, get_fd. destruct (w_fds w fd) as [o|] eqn:E; [|split; [exact H|eexists; reflexivity]].
  destruct (w_inodes w (o_uid o)) as [i|] eqn:E2; [|split; [exact H|eexists; reflexivity]].
  split; [exact H|]. cbn [fst snd]. auto.
Qed.

Lemma fstat_wp fd w : sane w ->
  wp sane os_error (sys_fstat fd) w (fun st w' => w' = w /\ fsize fd w = Some (snd st)).
Proof.
  intros H. unfold sys_fstat. apply wp_bind. eapply wp_post; [exact (get_fd_wp fd w H)|].
  intros [o i] w' _ (-> & E1 & E2) _. cbn [fst snd] in *. apply wp_ret; [exact H|]. split; [reflexivity|].
  unfold fsize. rewrite E1, E2. reflexivity.
Qed.

Lemma lseek_wp fd off wh w : sane w -> wp sane os_error (sys_lseek fd off wh) w (fun p _ => 0 <= p).
Proof.
  intros H. unfold sys_lseek. apply wp_bind. eapply wp_post; [exact (get_fd_wp fd w H)|].
  intros [o i] w' _ (-> & E1 & E2) _. cbn [fst snd] in *.
  assert (G : wp sane os_error
    (match (if wh =? 0 then Some 0 else if wh =? 1 then Some (o_pos o) else if wh =? 2 then Some (Z.of_nat (length (n_data i))) else None) with
     | None => raise (EOS EINVAL)
     | Some b => let p := b + off in if p <? 0 then raise (EOS EINVAL) else fun w => (Ok p, upd_fd w fd (Some (set_pos o p)))
     end) w (fun p _ => 0 <= p)).
  { destruct (if wh =? 0 then _ else _) as [b|]; [|apply wp_raise; [exact H|eexists; reflexivity]].
    cbv zeta. destruct (b + off <? 0) eqn:L; [apply wp_raise; [exact H|eexists; reflexivity]|].
    apply Z.ltb_ge in L. split; [apply sane_fd; [exact H|exact L]|exact L]. }
  destruct (n_kind i); [exact G|exact G|apply wp_raise; [exact H|eexists; reflexivity]].
Qed.

Lemma ftruncate_wp fd s w : sane w -> wp sane os_error (sys_ftruncate fd s) w (fun _ w' => fsize fd w' = Some s).
Proof.
  intros H. unfold sys_ftruncate. apply wp_bind. eapply wp_post; [exact (get_fd_wp fd w H)|].
  intros [o i] w' _ (-> & E1 & E2) _. cbn [fst snd] in *.
  destruct (negb (o_wr o) || (s <? 0)) eqn:L; [apply wp_raise; [exact H|eexists; reflexivity]|].
  apply orb_false_iff in L. destruct L as [_ L]. apply Z.ltb_ge in L.
  destruct (n_kind i); try (apply wp_raise; [exact H|eexists; reflexivity]).
  unfold wp, bind. rewrite next_io_eq. fold (drawn w).
  assert (G : fsize fd (upd_ino (drawn w) (o_uid o) (mkIno KReg (set_size (n_data i) (Z.to_nat s)) true)) = Some s).
  { unfold fsize, upd_ino. cbn [w_fds set_inodes w_inodes]. rewrite drawn_fds, E1. unfold upd. rewrite uid_eqb_refl. cbn [n_data].
    f_equal. unfold set_size, pad_to. rewrite firstn_length, app_length, repeat_length. lia. }
  destruct (match w_io w with [] => IoFull | e :: _ => e end); cbn [raise]; (split; [apply sane_ino || idtac; exact (drawn_sane w H)|]);
    first [exact G | eexists; reflexivity].
Qed.

Lemma flush_disk_wp fd w : sane w -> wp sane os_error (sys_flush_to_disk fd) w (fun _ _ => True).
Proof.
  intros H. unfold sys_flush_to_disk. apply wp_bind. eapply wp_post; [exact (get_fd_wp fd w H)|].
  intros [o i] w' _ (-> & E1 & E2) _. cbn [fst snd] in *.
  unfold wp, bind. rewrite next_io_eq. fold (drawn w).
  destruct (match w_io w with [] => IoFull | e :: _ => e end); cbn [raise]; (split; [exact (drawn_sane w H)|]); first [exact Logic.I | eexists; reflexivity].
Qed.

(** Reading gives what is still to be delivered. *)
Lemma inner_read_wp f n w : sane w ->
  wp sane os_error (inner_read f n) w (fun d w' =>
    (match d with Some b => length b | None => O end + rest (fd_of f) w' <= rest (fd_of f) w)%nat).
Proof.
  intros H. unfold inner_read. set (fd := fd_of f).
  assert (G : match sys_read fd n w with
              | (Ok d, w') => sane w' /\ (length d + rest fd w' <= rest fd w)%nat
              | (Err e, w') => sane w' /\ os_error e /\ (rest fd w' <= rest fd w)%nat
              end).
  { unfold sys_read, bind, get_fd.
    destruct (w_fds w fd) as [o|] eqn:E1; [|split; [exact H|split; [eexists; reflexivity|lia]]].
    destruct (w_inodes w (o_uid o)) as [i|] eqn:E2; [|split; [exact H|split; [eexists; reflexivity|lia]]].
    destruct (negb (o_rd o)); [split; [exact H|split; [eexists; reflexivity|lia]]|].
    pose proof (H fd o E1) as Hp.
    assert (R : rest fd w = match n_kind i with KPipe => length (n_data i) | _ => length (skipn (Z.to_nat (o_pos o)) (n_data i)) end)
      by (unfold rest; rewrite E1, E2; reflexivity).
    destruct (n_kind i) eqn:K; cbv beta zeta.
    - destruct (n <? 0); [split; [exact H|split; [eexists; reflexivity|lia]]|].
      rewrite next_io_eq. fold (drawn w).
      assert (G1 : forall c, sane (upd_fd (drawn w) fd (Some (set_pos o (o_pos o + Z.of_nat (length (firstn c (skipn (Z.to_nat (o_pos o)) (n_data i)))))))) /\
                 (length (firstn c (skipn (Z.to_nat (o_pos o)) (n_data i))) + rest fd (upd_fd (drawn w) fd (Some (set_pos o (o_pos o + Z.of_nat (length (firstn c (skipn (Z.to_nat (o_pos o)) (n_data i)))))))) <= rest fd w)%nat).
      { intros c. split; [apply sane_fd; [exact (drawn_sane w H)|cbn [o_pos set_pos]; lia]|].
        rewrite R. unfold rest at 1, upd_fd. cbn [w_fds set_fds w_inodes]. unfold upd. rewrite Z.eqb_refl. cbn [o_uid set_pos o_pos].
        rewrite drawn_inodes, E2, K.
        rewrite !skipn_length, firstn_length, skipn_length. lia. }
      destruct (match w_io w with [] => IoFull | e :: _ => e end); cbn [raise]; try exact (G1 _).
      split; [exact (drawn_sane w H)|]. split; [eexists; reflexivity|]. rewrite drawn_rest. lia.
    - split; [exact H|split; [eexists; reflexivity|lia]].
    - destruct (n <? 0); [split; [exact H|split; [eexists; reflexivity|lia]]|].
      rewrite next_io_eq. fold (drawn w).
      assert (G1 : forall c, sane (upd_ino (drawn w) (o_uid o) (mkIno KPipe (skipn c (n_data i)) (n_dirty i))) /\
                 (length (firstn c (n_data i)) + rest fd (upd_ino (drawn w) (o_uid o) (mkIno KPipe (skipn c (n_data i)) (n_dirty i))) <= rest fd w)%nat).
      { intros c. split; [exact (drawn_sane w H)|].
        rewrite R. unfold rest at 1, upd_ino. cbn [w_fds set_inodes w_inodes]. rewrite drawn_fds, E1. unfold upd. rewrite uid_eqb_refl. cbn [n_kind n_data].
        rewrite skipn_length, firstn_length. lia. }
      destruct (match w_io w with [] => IoFull | e :: _ => e end); cbn [raise]; try exact (G1 _).
      split; [exact (drawn_sane w H)|]. split; [eexists; reflexivity|]. rewrite drawn_rest. lia. }
  unfold wp. destruct (sys_read fd n w) as [[d | e] w'].
  - destruct G as [G1 G2]. split; assumption.
  - destruct G as [G1 [[x ->] G2]].
    destruct (x =? EAGAIN); [split; [exact G1|exact G2]|]. destruct (x =? EPIPE); [split; [exact G1|exact G2]|].
    split; [exact G1|eexists; reflexivity].
Qed.

(** Writing [k] bytes: they, at most, can be read in addition. *)
Lemma inner_write_wp f b w : sane w ->
  wp sane os_error (inner_write f b) w (fun r w' =>
    match r with
    | Some k => 0 <= k <= Z.of_nat (length b) /\ (b <> [] -> 1 <= k) /\ (rest (fd_of f) w' <= rest (fd_of f) w + Z.to_nat k)%nat
    | None => True
    end).
Proof.
  intros H. unfold inner_write. set (fd := fd_of f).
  assert (G : match sys_write fd b w with
              | (Ok k, w') => sane w' /\ 0 <= k <= Z.of_nat (length b) /\ (b <> [] -> 1 <= k) /\ (rest fd w' <= rest fd w + Z.to_nat k)%nat
              | (Err e, w') => sane w' /\ os_error e
              end).
  { unfold sys_write, bind, get_fd.
    destruct (w_fds w fd) as [o|] eqn:E1; [|split; [exact H|eexists; reflexivity]].
    destruct (w_inodes w (o_uid o)) as [i|] eqn:E2; [|split; [exact H|eexists; reflexivity]].
    destruct (negb (o_wr o)); [split; [exact H|eexists; reflexivity]|].
    rewrite next_io_eq. fold (drawn w).
    pose proof (H fd o E1) as Hp.
    assert (R : rest fd w = match n_kind i with KPipe => length (n_data i) | _ => length (skipn (Z.to_nat (o_pos o)) (n_data i)) end)
      by (unfold rest; rewrite E1, E2; reflexivity).
    assert (L : forall e, 0 <= Z.of_nat (length (firstn (io_count e (length b)) b)) <= Z.of_nat (length b) /\
                          (b <> [] -> 1 <= Z.of_nat (length (firstn (io_count e (length b)) b)))).
    { intros e. rewrite firstn_length. split; [lia|]. intros N. destruct b as [|x b]; [contradiction|]. cbn [length]. destruct e; cbn [io_count]; lia. }
    assert (KF : forall e, let c := firstn (io_count e (length b)) b in
       let pos := if o_app o then Z.of_nat (length (n_data i)) else o_pos o in
       let w' := upd_fd (upd_ino (drawn w) (o_uid o) (mkIno (n_kind i) (write_at (n_data i) (Z.to_nat pos) c) (n_dirty i || (negb (o_sync o) && negb (is_nil c))))) fd (Some (set_pos o (pos + Z.of_nat (length c)))) in
       n_kind i <> KPipe ->
       sane w' /\ (rest fd w' <= rest fd w)%nat).
    { intros e c pos w' NP. assert (Hpos : 0 <= pos) by (unfold pos; destruct (o_app o); lia). split.
      { unfold w'. apply sane_fd; [exact (drawn_sane w H)|]. cbn [o_pos set_pos]. lia. }
      rewrite R. unfold rest, w'. unfold upd_fd at 1. cbn [w_fds set_fds w_inodes]. unfold upd at 1. rewrite Z.eqb_refl. cbn [o_uid set_pos o_pos].
      unfold upd_fd, upd_ino. cbn [w_fds set_fds w_inodes set_inodes]. unfold upd. rewrite uid_eqb_refl. cbn [n_kind n_data].
      assert (LL : (length (skipn (Z.to_nat (pos + Z.of_nat (length c))) (write_at (n_data i) (Z.to_nat pos) c)) <= length (skipn (Z.to_nat (o_pos o)) (n_data i)))%nat).
      { rewrite !skipn_length. unfold write_at. destruct c as [|x c'].
        - cbn [length]. unfold pos. destruct (o_app o); lia.
        - rewrite !app_length, firstn_length, skipn_length. unfold pad_to. rewrite app_length, repeat_length.
          unfold pos. destruct (o_app o); lia. }
      destruct (n_kind i); [exact LL|exact LL|contradiction]. }
    assert (KP : forall e, let c := firstn (io_count e (length b)) b in
       let w' := upd_ino (drawn w) (o_uid o) (mkIno KPipe (n_data i ++ c) (n_dirty i)) in
       n_kind i = KPipe ->
       sane w' /\ (rest fd w' <= rest fd w + Z.to_nat (Z.of_nat (length c)))%nat).
    { intros e c w' KP. split; [exact (drawn_sane w H)|].
      rewrite R, KP. unfold rest, w', upd_ino. cbn [w_fds set_inodes w_inodes]. rewrite drawn_fds, E1. unfold upd. rewrite uid_eqb_refl. cbn [n_kind n_data].
      rewrite app_length, Nat2Z.id. lia. }
    assert (KA : forall e, match e with IoErr _ => False | _ => True end ->
       match (let c := firstn (io_count e (length b)) b in
              match n_kind i with
              | KPipe => fun w => (Ok (Z.of_nat (length c)), upd_ino w (o_uid o) (mkIno KPipe (n_data i ++ c) (n_dirty i)))
              | k =>
                  let pos := if o_app o then Z.of_nat (length (n_data i)) else o_pos o in
                  fun w => (Ok (Z.of_nat (length c)),
                      upd_fd (upd_ino w (o_uid o)
                                (mkIno k (write_at (n_data i) (Z.to_nat pos) c)
                                       (n_dirty i || (negb (o_sync o) && negb (is_nil c)))))
                             fd (Some (set_pos o (pos + Z.of_nat (length c)))))
              end : M Z) (drawn w) with
       | (Ok k, w') => sane w' /\ 0 <= k <= Z.of_nat (length b) /\ (b <> [] -> 1 <= k) /\ (rest fd w' <= rest fd w + Z.to_nat k)%nat
       | (Err e, w') => sane w' /\ os_error e
       end).
    { intros e _. specialize (KF e). specialize (KP e). specialize (L e). cbv zeta in *. revert KF KP. destruct (n_kind i); intros KF KP; cbv beta.
      - destruct (KF ltac:(discriminate)) as [S1 S2]. split; [exact S1|]. destruct L as [L1 L2]. split; [exact L1|]. split; [exact L2|]. lia.
      - destruct (KF ltac:(discriminate)) as [S1 S2]. split; [exact S1|]. destruct L as [L1 L2]. split; [exact L1|]. split; [exact L2|]. lia.
      - destruct (KP eq_refl) as [S1 S2]. split; [exact S1|]. destruct L as [L1 L2]. split; [exact L1|]. split; [exact L2|]. exact S2. }
    destruct (match w_io w with [] => IoFull | e :: _ => e end) as [|m|x].
    - exact (KA IoFull Logic.I).
    - exact (KA (IoShort m) Logic.I).
    - split; [exact (drawn_sane w H)|eexists; reflexivity]. }
  unfold wp. destruct (sys_write fd b w) as [[d | e] w'].
  - exact G.
  - destruct G as [G1 [x ->]]. destruct (x =? EAGAIN); [split; [exact G1|exact Logic.I]|]. split; [exact G1|eexists; reflexivity].
Qed.

(** * Raw streams *)
Section Raw.
Variable P : exn -> Prop.
Variable f : rawio.
Hypothesis P_os : forall n, P (EOS n).
Hypothesis P_unsupported : P EUnsupported.
Hypothesis P_closed : f_closed f = true -> P EValue.

Lemma os_P e : os_error e -> P e.
Proof. intros [n ->]. apply P_os. Qed.

Lemma wp_os {A} (m : M A) w (Q Q' : A -> world -> Prop) :
  wp sane os_error m w Q -> (forall a w', sane w' -> Q a w' -> Q' a w') -> wp sane P m w Q'.
Proof. intros H G. exact (wp_mono sane os_error P m w Q Q' H os_P G). Qed.

Lemma check_closed_wp w : sane w -> wp sane P (check_closed f) w (fun _ w' => w' = w).
Proof. intros H. unfold check_closed. destruct (f_closed f) eqn:E; split; auto. Qed.
Lemma check_mode_wp (b : bool) w : sane w -> wp sane P (check_closed f ;; if b then ret tt else raise EUnsupported) w (fun _ w' => w' = w /\ b = true).
Proof.
  intros H. apply wp_bind. eapply wp_post; [exact (check_closed_wp w H)|]. intros _ w' _ -> _.
  destruct b; [apply wp_ret; auto|apply wp_raise; auto].
Qed.
Lemma check_seekable_wp w : sane w -> wp sane P (check_seekable f) w (fun _ w' => w' = w /\ f_seekable f = true).
Proof. exact (check_mode_wp (f_seekable f) w). Qed.
Lemma check_readable_wp w : sane w -> wp sane P (check_readable f) w (fun _ w' => w' = w).
Proof. intros H. eapply wp_post; [exact (check_mode_wp (f_readable f) w H)|]. intros a w' _ [E _]. exact E. Qed.
Lemma check_writable_wp w : sane w -> wp sane P (check_writable f) w (fun _ w' => w' = w).
Proof. intros H. eapply wp_post; [exact (check_mode_wp (f_writable f) w H)|]. intros a w' _ [E _]. exact E. Qed.

Lemma inner_size_wp w : sane w -> wp sane P (inner_size f) w (fun n w' => w' = w /\ fsize (fd_of f) w = Some n).
Proof.
  intros H. unfold inner_size. apply wp_bind. eapply wp_os; [exact (fstat_wp (fd_of f) w H)|].
  intros st w' _ [-> E] _. apply wp_ret; auto.
Qed.
Lemma raw_size_wp w : sane w -> wp sane P (raw_size f) w (fun n w' => w' = w /\ fsize (fd_of f) w = Some n).
Proof.
  intros H. unfold raw_size. apply wp_bind. eapply wp_post; [exact (check_closed_wp w H)|]. intros _ w' _ -> _.
  exact (inner_size_wp w H).
Qed.
Lemma raw_seek_wp off wh w : sane w -> wp sane P (raw_seek f off wh) w (fun p _ => 0 <= p).
Proof.
  intros H. unfold raw_seek. apply wp_bind. eapply wp_post; [exact (check_closed_wp w H)|]. intros _ w' _ -> _.
  eapply wp_os; [exact (lseek_wp (fd_of f) off wh w H)|]. auto.
Qed.
Lemma raw_tell_wp w : sane w -> wp sane P (raw_tell f) w (fun p _ => 0 <= p).
Proof. exact (raw_seek_wp 0 1 w). Qed.

(** What a read gives leaves the stream. *)
Definition took (w : world) (d : option (list byte)) (w' : world) : Prop :=
  (match d with Some b => length b | None => O end + rest (fd_of f) w' <= rest (fd_of f) w)%nat.

Lemma checked_read_wp {A} (m : M A) w Q : sane w -> wp sane P m w Q -> wp sane P (check_closed f ;; check_readable f ;; m) w Q.
Proof.
  intros H G. apply wp_bind. eapply wp_post; [exact (check_closed_wp w H)|]. intros _ w' _ -> _.
  apply wp_bind. eapply wp_post; [exact (check_readable_wp w H)|]. intros _ w' _ -> _. exact G.
Qed.
Lemma raw_read_n_wp n w : sane w -> wp sane P (raw_read_n f n) w (took w).
Proof.
  intros H. apply (checked_read_wp (inner_read f n) w); [exact H|].
  eapply wp_os; [exact (inner_read_wp f n w H)|]. auto.
Qed.
Lemma readall_loop_wp : forall k acc w, sane w -> (rest (fd_of f) w < k)%nat ->
  wp sane P (readall_loop k f acc) w (fun d w' =>
    (match d with Some b => length b | None => O end + rest (fd_of f) w' <= length acc + rest (fd_of f) w)%nat).
Proof.
  induction k as [|k IH]; intros acc w H L; [lia|]. cbn [readall_loop]. apply wp_bind.
  eapply wp_post; [exact (raw_read_n_wp DEFAULT_BUFFER_SIZE w H)|]. intros d w1 H1 T _. unfold took in T.
  destruct d as [[|x d]|].
  - apply wp_ret; [exact H1|]. cbn [length] in T. destruct acc; cbn [length] in *; lia.
  - cbn [length] in T. eapply wp_post; [apply IH; [exact H1|lia]|]. intros r w2 _ T2. cbv beta in T2.
    rewrite app_length in T2. cbn [length] in T2. lia.
  - apply wp_ret; [exact H1|]. destruct acc; cbn [length] in *; lia.
Qed.
Lemma readall_fuel_eq w : exists n, readall_fuel f w = (Ok n, w) /\ (rest (fd_of f) w <= n)%nat.
Proof.
  unfold readall_fuel, rest. destruct (w_fds w (fd_of f)) as [o|]; [|exists O; split; [reflexivity|lia]].
  destruct (w_inodes w (o_uid o)) as [i|]; [|exists O; split; [reflexivity|lia]].
  exists (length (n_data i)). split; [reflexivity|]. destruct (n_kind i); rewrite ?skipn_length; lia.
Qed.
Lemma raw_readall_wp w : sane w -> wp sane P (raw_readall f) w (took w).
Proof.
  intros H. unfold raw_readall. apply wp_bind. destruct (readall_fuel_eq w) as (n & E & L). unfold wp at 1. rewrite E.
  split; [exact H|]. intros _. eapply wp_post; [apply (readall_loop_wp (S n) [] w H); lia|]. intros d w' _ T. exact T.
Qed.
Lemma raw_read_wp n w : sane w -> wp sane P (raw_read f n) w (took w).
Proof.
  intros H. unfold raw_read. apply (checked_read_wp _ w); [exact H|]. destruct n as [k|]; [|exact (raw_readall_wp w H)].
  destruct (k <? 0); [exact (raw_readall_wp w H)|]. eapply wp_os; [exact (inner_read_wp f k w H)|]. auto.
Qed.
Lemma raw_readinto_wp n w : P EType -> sane w -> wp sane P (raw_readinto f n) w (fun d => took w (Some d)).
Proof.
  intros PT H. unfold raw_readinto. apply (checked_read_wp _ w); [exact H|]. apply wp_bind.
  eapply wp_os; [exact (inner_read_wp f n w H)|]. intros [b|] w' H' T _; [|apply wp_raise; auto]. apply wp_ret; auto.
Qed.

Lemma raw_write_wp b w : sane w -> wp sane P (raw_write f b) w (fun r w' =>
    match r with
    | Some k => 0 <= k <= Z.of_nat (length b) /\ (b <> [] -> 1 <= k) /\ (rest (fd_of f) w' <= rest (fd_of f) w + Z.to_nat k)%nat
    | None => True
    end).
Proof.
  intros H. unfold raw_write. apply wp_bind. eapply wp_post; [exact (check_closed_wp w H)|]. intros _ w' _ -> _.
  apply wp_bind. eapply wp_post; [exact (check_writable_wp w H)|]. intros _ w' _ -> _.
  apply wp_bind. eapply wp_os; [exact (inner_write_wp f b w H)|]. intros [k|] w' H' T _; [|apply wp_ret; auto].
  cbv beta iota in T. destruct T as (T1 & T2 & T3).
  destruct (negb (is_nil b) && (k =? 0)) eqn:E.
  { apply andb_true_iff in E. destruct E as [E1 E2]. apply Z.eqb_eq in E2. assert (b <> []) by (destruct b; discriminate). specialize (T2 H0). lia. }
  destruct ((k <? 0) || (Z.of_nat (length b) <? k)) eqn:E2.
  { apply orb_true_iff in E2. rewrite !Z.ltb_lt in E2. lia. }
  apply wp_ret; auto.
Qed.

Lemma raw_truncate_wp s w : sane w -> wp sane P (raw_truncate f s) w (fun _ _ => True).
Proof.
  intros H. unfold raw_truncate. apply wp_bind. eapply wp_post; [exact (check_seekable_wp w H)|]. intros _ w' _ [-> _] _.
  apply wp_bind. eapply wp_post; [exact (check_writable_wp w H)|]. intros _ w' _ -> _.
  apply wp_bind.
  apply wp_post with (Q := fun p _ => 0 <= p).
  { destruct s as [s|]; [|exact (raw_tell_wp w H)]. destruct (s <? 0) eqn:E; [apply wp_raise; auto|]. apply Z.ltb_ge in E. apply wp_ret; auto. }
  intros sz w1 H1 Hs _. apply wp_bind. eapply wp_post; [exact (raw_size_wp w1 H1)|]. intros cur w2 _ [-> Ecur] _.
  apply wp_bind. apply wp_post with (Q := fun _ _ => True).
  2:{ intros _ w' H' _ _. eapply wp_post; [exact (raw_size_wp w' H')|]. auto. }
  destruct (sz =? cur); [apply wp_ret; auto|]. destruct (sz <? cur).
  - unfold inner_reduce. destruct (sz <? 0) eqn:E; [apply Z.ltb_lt in E; lia|]. eapply wp_os; [exact (ftruncate_wp (fd_of f) sz w1 H1)|]. auto.
  - apply wp_bind. unfold inner_extend. destruct (sz <? 0) eqn:E; [apply Z.ltb_lt in E; lia|].
    eapply wp_os; [exact (ftruncate_wp (fd_of f) sz w1 H1)|]. intros u w2 H2 F2 _. cbv beta in F2.
    apply wp_bind. eapply wp_post; [exact (raw_size_wp w2 H2)|]. intros c2 w3 _ [-> E2] _. rewrite F2 in E2. injection E2 as E2. rewrite <- E2.
    rewrite Z.eqb_refl. apply wp_ret; auto.
Qed.

Lemma attempt_os_wp (m k : M unit) w : sane w -> wp sane os_error m w (fun _ _ => True) ->
  (forall w', sane w' -> wp sane os_error k w' (fun _ _ => True)) -> wp sane os_error (attempt_os m k) w (fun _ _ => True).
Proof.
  intros H G K. unfold wp at 1, attempt_os. unfold wp in G. destruct (m w) as [[a | e] w1]; [exact G|].
  destruct G as [G1 [n ->]]. exact (K w1 G1).
Qed.
Lemma raw_sync_wp h md full w : sane w -> wp sane P (raw_sync h f md full) w (fun _ _ => True).
Proof.
  intros H. unfold raw_sync. apply wp_bind. eapply wp_post; [exact (check_closed_wp w H)|]. intros _ w' _ -> _.
  apply wp_os with (Q := fun _ _ => True); [|auto]. unfold inner_sync. cbv zeta.
  set (st := if negb md && h then attempt_os (sys_flush_to_disk (fd_of f)) (sys_flush_to_disk (fd_of f)) else sys_flush_to_disk (fd_of f)).
  assert (S2 : forall w', sane w' -> wp sane os_error st w' (fun _ _ => True)).
  { intros w' H'. unfold st. destruct (negb md && h); [|exact (flush_disk_wp (fd_of f) w' H')].
    apply attempt_os_wp; [exact H'|exact (flush_disk_wp (fd_of f) w' H')|]. intros w2 H2. exact (flush_disk_wp (fd_of f) w2 H2). }
  destruct full; [|exact (S2 w H)]. apply attempt_os_wp; [exact H|exact (flush_disk_wp (fd_of f) w H)|exact S2].
Qed.
End Raw.

(** * Locks and closing *)

Lemma sane_set_reg w r : sane w -> sane (set_reg w r).
Proof. intros H. exact H. Qed.
Lemma sane_set_kern w r : sane w -> sane (set_kern w r).
Proof. intros H. exact H. Qed.

Lemma apply_env_fds u h ev w : w_fds (apply_env u h ev w) = w_fds w.
Proof.
  unfold apply_env. destruct (ev_kern ev), (ev_locks ev); cbv zeta; cbn [w_reg set_clock set_kern];
    try (destruct (r_map (w_reg w) u)); destruct (ev_data ev); try reflexivity;
    match goal with |- context [match ?x with Some _ => _ | None => _ end] => destruct x end; reflexivity.
Qed.
Lemma apply_env_sane u h ev w : sane w -> sane (apply_env u h ev w).
Proof. unfold sane. rewrite apply_env_fds. auto. Qed.

Definition entered (w : world) (u : uid) : Prop := r_map (w_reg w) u <> None.
Lemma reg_set_same r u e : r_map (reg_set r u e) u = e.
Proof. unfold reg_set. cbn [r_map]. unfold upd. now rewrite uid_eqb_refl. Qed.
Lemma apply_env_entered u h ev w : entered w u -> entered (apply_env u h ev w) u.
Proof.
  unfold entered. intros H. unfold apply_env.
  destruct (ev_kern ev), (ev_locks ev); cbv zeta; cbn [w_reg set_clock set_kern];
    destruct (r_map (w_reg w) u) as [e|] eqn:E; try contradiction; destruct (ev_data ev);
    repeat match goal with |- context [match ?x with Some _ => _ | None => _ end] => destruct x end;
    cbn [w_reg set_reg set_clock set_kern upd_ino set_inodes]; rewrite ?reg_set_same, ?E; discriminate.
Qed.

Lemma try_locking_cases r u h l s sh : match try_locking_range r u h l s sh with
  | (Err e, _) => e = ERuntime
  | (Ok _, r') => r_map r' u <> None
  end.
Proof.
  unfold try_locking_range, ensure_entry_exists. destruct (r_map r u) as [e|] eqn:E.
  - rewrite E. destruct (scan_locks _ _ _ _ _); [rewrite reg_set_same; discriminate|rewrite E; discriminate|reflexivity].
  - rewrite reg_set_same. destruct (scan_locks _ _ _ _ _); [rewrite reg_set_same; discriminate|rewrite reg_set_same; discriminate|reflexivity].
Qed.
Lemma try_unlocking_cases r u h l s : match try_unlocking_range r u h l s with (Err e, _, _) => e = ERuntime | _ => True end.
Proof.
  unfold try_unlocking_range. destruct (r_map r u) as [e|]; [|exact Logic.I]. destruct (delete_match _ _ _ _); [exact Logic.I|reflexivity].
Qed.

Lemma lock_pre_wp fd sh lo w : sane w -> wp sane os_error (lock_pre fd sh lo) w (fun _ w' => w_reg w' = w_reg w).
Proof.
  intros H. unfold lock_pre. apply wp_bind. eapply wp_post; [exact (get_fd_wp fd w H)|].
  intros [o i] w' _ (-> & E1 & E2) _. unfold wp, bind. rewrite next_io_eq. fold (drawn w).
  assert (R : w_reg (drawn w) = w_reg w) by (unfold drawn; destruct (w_io w); reflexivity).
  pose proof (drawn_sane w H) as D.
  destruct (match w_io w with [] => IoFull | e :: _ => e end); cbn [raise];
    try (split; [exact D|eexists; reflexivity]);
    (destruct (lo <? 0); [split; [exact D|eexists; reflexivity]|]; destruct (if sh then _ else _); [split; [exact D|eexists; reflexivity]|];
     split; [exact D|exact R]).
Qed.
Lemma sys_unlock_wp fd lo l w : sane w -> wp sane os_error (sys_unlock fd lo l) w (fun _ _ => True).
Proof.
  intros H. unfold sys_unlock. apply wp_bind. eapply wp_post; [exact (get_fd_wp fd w H)|].
  intros [o i] w' _ (-> & E1 & E2) _. unfold wp, bind. rewrite next_io_eq. fold (drawn w).
  pose proof (drawn_sane w H) as D.
  destruct (match w_io w with [] => IoFull | e :: _ => e end); cbn [raise];
    try (split; [exact D|eexists; reflexivity]);
    (destruct (lo <? 0); [split; [exact D|eexists; reflexivity]|]; split; [exact D|exact Logic.I]).
Qed.

Lemma sys_close_wp fd w : sane w -> wp sane os_error (sys_close fd) w (fun _ _ => True).
Proof.
  intros H. unfold wp, sys_close. destruct (w_fds w fd); [|split; [exact H|eexists; reflexivity]].
  split; [apply sane_set_kern, sane_fd_none, H|exact Logic.I].
Qed.
Lemma close_all_wp : forall fds w, sane w -> wp sane os_error (close_all fds) w (fun _ _ => True).
Proof.
  induction fds as [|fd r IH]; intros w H; cbn [close_all]; [apply wp_ret; auto|].
  apply wp_bind. eapply wp_post; [exact (sys_close_wp fd w H)|]. intros _ w' H' _ _. exact (IH w' H').
Qed.
Lemma purge_pending_wp u w : sane w -> wp sane os_error (purge_pending u) w (fun _ _ => True).
Proof.
  intros H. unfold wp, purge_pending. destruct (unique_id_has_locks (w_pid w) (w_reg w) u) as [[|] r1]; [split; [exact H|exact Logic.I]|].
  destruct (remove_unique_id_data (w_pid w) r1 u) as [fds r2].
  pose proof (close_all_wp fds (set_reg w r2) (sane_set_reg w r2 H)) as G. unfold wp in G.
  destruct (close_all fds (set_reg w r2)) as [[a | e] w']; exact G.
Qed.
Lemma inner_file_unlock_wp f l off w : sane w -> wp sane os_error (inner_file_unlock f l off) w (fun _ _ => True).
Proof.
  intros H. unfold inner_file_unlock. eapply wp_finally; [exact (sys_unlock_wp (fd_of f) off (klen l) w H)|].
  intros w' H'. apply wp_bind. eapply wp_post; [exact (purge_pending_wp (uid_of f) w' H')|]. intros _ w2 H2 _ _. apply wp_ret; auto.
Qed.
Lemma unlock_each_wp f : forall l w, sane w -> wp sane os_error (unlock_each f l) w (fun _ _ => True).
Proof.
  induction l as [|lk r IH]; intros w H; cbn [unlock_each]; [apply wp_ret; auto|].
  apply wp_bind. eapply wp_post; [apply inner_file_unlock_wp; exact H|]. intros _ w' H' _ _. exact (IH w' H').
Qed.
Lemma raw_close_wp f w : f_fd f <> Some 0 -> sane w -> wp sane os_error (raw_close f) w (fun _ _ => True).
Proof.
  intros F H. unfold raw_close. destruct (f_closed f); [apply wp_ret; auto|].
  apply wp_bind. apply wp_post with (Q := fun _ _ => True).
  { destruct (f_uid f) as [u|]; [|apply wp_ret; auto]. destruct (f_fd f) as [fd|]; [|apply wp_ret; auto].
    apply wp_bind. unfold wp at 1. destruct (remove_file_locks (w_pid w) (w_reg w) u fd) as [l reg].
    split; [exact H|]. intros H'. exact (unlock_each_wp f l (set_reg w reg) H'). }
  intros _ w1 H1 _ _. unfold inner_close_streams. destruct (f_closefd f); [|apply wp_ret; auto].
  destruct (f_uid f) as [u|]; [|apply wp_ret; auto]. destruct (f_fd f) as [fd|]; [|apply wp_ret; auto].
  apply wp_bind. unfold wp at 1, add_unique_id_data.
  destruct (fd =? 0) eqn:E0; [apply Z.eqb_eq in E0; congruence|].
  unfold ensure_entry_exists. destruct (r_map (check_forking (w_pid w1) (w_reg w1)) u) as [e|] eqn:E.
  - rewrite E. split; [exact H1|]. intros H2. apply wp_bind. eapply wp_post; [exact (purge_pending_wp u _ H2)|].
    intros _ w3 H3 _ _. unfold wp. destruct (try_deleting_unique_id_entry (w_pid w3) (w_reg w3) u). split; [exact H3|exact Logic.I].
  - rewrite reg_set_same. split; [exact H1|]. intros H2. apply wp_bind. eapply wp_post; [exact (purge_pending_wp u _ H2)|].
    intros _ w3 H3 _ _. unfold wp. destruct (try_deleting_unique_id_entry (w_pid w3) (w_reg w3) u). split; [exact H3|exact Logic.I].
Qed.

Section Locks.
Variable P : exn -> Prop.
Variable f : rawio.
Hypothesis P_os : forall n, P (EOS n).
Hypothesis P_unsupported : P EUnsupported.
Hypothesis P_closed : f_closed f = true -> P EValue.
Hypothesis P_runtime : P ERuntime.
Hypothesis P_locking : forall n, P (ELocking n).
Hypothesis P_bad : P EBadValue.
Hypothesis P_hang : P EHang.
Hypothesis P_spin : f_spin f < 0 -> P EValue.

Lemma check_timeout_P q now errno e : check_timeout f q now errno = Some e -> P e.
Proof.
  unfold check_timeout. assert (S : (if f_spin f <? 0 then Some EValue else None) = Some e -> P e).
  { destruct (f_spin f <? 0) eqn:E; [|discriminate]. apply Z.ltb_lt in E. intros X. injection X as <-. auto. }
  destruct (q_timeout q) as [t|].
  - destruct (t <=? now - q_start_time q); [|exact S]. intros X. injection X as <-. apply P_locking.
  - destruct (f_enforced f) as [t|]; [|exact S]. destruct (t <=? now - q_start_time q); [|exact S]. intros X. injection X as <-. exact P_runtime.
Qed.
Lemma unregister_wp q w : sane w -> wp sane P (unregister f q) w (fun _ _ => True).
Proof.
  intros H. unfold wp, unregister, unregister_file_lock.
  pose proof (try_unlocking_cases (check_forking (w_pid w) (w_reg w)) (uid_of f) (fd_of f) (q_length q) (q_off q)) as C.
  destruct (try_unlocking_range _ _ _ _ _) as [[[a | e] reg] n]; (split; [exact H|]); [exact Logic.I|rewrite C; exact P_runtime].
Qed.

Definition done (r : res unit * world) : Prop := sane (snd r) /\ forall e, fst r = Err e -> P e.
Lemma done_wp (m : M unit) w : wp sane P m w (fun _ _ => True) -> done (m w).
Proof.
  unfold wp, done. destruct (m w) as [[a | e] w']; intros [H1 H2]; (split; [exact H1|]); [discriminate|]. intros e' E. injection E as <-. exact H2.
Qed.
Lemma done_err e w : sane w -> P e -> done (Err e, w).
Proof. intros H Pe. split; [exact H|]. intros e' E. injection E as <-. exact Pe. Qed.
Lemma unregister_done q e w : sane w -> P e ->
  done (match unregister f q w with (Ok _, w') => (Err e, w') | (Err e', w') => (Err e', w') end).
Proof.
  intros H Pe. pose proof (unregister_wp q w H) as G. unfold wp in G.
  destruct (unregister f q w) as [[a | e'] w']; destruct G as [G1 G2]; apply done_err; assumption.
Qed.

(** One turn of the loops of lock_file; [nx]: what comes after a sleep or a wait. *)
Definition sleeps q (nx : phase -> world -> res unit * world) (next : phase) (errno : Z) (reg : bool) (w : world) :=
  match check_timeout f q (w_clock w) errno with
  | Some e => if reg then match unregister f q w with (Ok _, w') => (Err e, w') | (Err e', w') => (Err e', w') end
              else (Err e, w)
  | None => nx next w
  end.
Definition attempts q nx (w : world) :=
  match lock_attempt (uid_of f) (q_shared q) (q_off q) (klen (q_length q)) w with
  | (Ok true, w') => (Ok tt, w')
  | (_, w') => if low_level_blocking f q then nx PhKernWait w' else sleeps q nx PhKern EAGAIN true w'
  end.
Definition kerns q nx (w : world) :=
  match lock_pre (fd_of f) (q_shared q) (q_off q) w with
  | (Ok _, w') => attempts q nx w'
  | (Err (EOS e), w') => sleeps q nx PhKern e true w'
  | (Err e, w') => match unregister f q w' with
                   | (Ok _, w'') => (Err e, w'')
                   | (Err e', w'') => (Err e', w'')
                   end
  end.
Definition registers q nx (first : bool) (w : world) :=
  let '(r, reg) := register_once first (w_pid w) (w_reg w) (uid_of f) (fd_of f) (q_length q) (q_off q) (q_shared q) in
  let w' := set_reg w reg in
  match r with
  | Err e => (Err e, w')
  | Ok true => kerns q nx w'
  | Ok false =>
      if low_level_blocking f q
      then match wait_count f 1 w' with
           | (Err e, w'') => (Err e, w'')
           | (Ok _, w'') => nx PhRegWait w''
           end
      else sleeps q nx PhReg EPERM false w'
  end.
Definition one_turn q nx (ph : phase) (w : world) :=
  match ph with
  | PhReg => registers q nx true w
  | PhRegWait => match wait_count f (-1) w with
                 | (Err e, w') => (Err e, w')
                 | (Ok _, w') => registers q nx false w'
                 end
  | PhKern => kerns q nx w
  | PhKernWait => attempts q nx w
  end.
Definition after q (env : list envev) (ph : phase) (w : world) : res unit * world :=
  match env with
  | [] => (Err EHang, w)
  | ev :: env' => lock_loop f q env' ph (set_env (apply_env (uid_of f) (fd_of f) ev w) env')
  end.
Lemma lock_loop_turn q env ph w : lock_loop f q env ph w = one_turn q (after q env) ph w.
Proof. destruct env; reflexivity. Qed.

Lemma one_turn_done q nx : (forall ph w, sane w -> (ph = PhRegWait -> entered w (uid_of f)) -> done (nx ph w)) ->
  forall ph w, sane w -> (ph = PhRegWait -> entered w (uid_of f)) -> done (one_turn q nx ph w).
Proof.
  intros NX.
  assert (SL : forall next errno reg w, sane w -> next <> PhRegWait -> done (sleeps q nx next errno reg w)).
  { intros next errno reg w H N. unfold sleeps. destruct (check_timeout f q (w_clock w) errno) as [e|] eqn:C; [|apply NX; [exact H|contradiction]].
    pose proof (check_timeout_P q _ _ e C) as Pe. destruct reg; [apply unregister_done; auto|apply done_err; auto]. }
  assert (AT : forall w, sane w -> done (attempts q nx w)).
  { intros w H. unfold attempts, lock_attempt. destruct (ksetlk _ _ _ _ _ _); [split; [exact H|discriminate]|].
    destruct (low_level_blocking f q); [apply NX; [exact H|discriminate]|apply SL; [exact H|discriminate]]. }
  assert (KE : forall w, sane w -> done (kerns q nx w)).
  { intros w H. unfold kerns. pose proof (lock_pre_wp (fd_of f) (q_shared q) (q_off q) w H) as G. unfold wp in G.
    destruct (lock_pre _ _ _ w) as [[a | e] w2]; destruct G as [G1 G2]; [exact (AT w2 G1)|]. destruct G2 as [n ->].
    apply SL; [exact G1|discriminate]. }
  assert (RE : forall first w, sane w -> done (registers q nx first w)).
  { intros first w H. unfold registers, register_once.
    pose proof (try_locking_cases (if first then check_forking (w_pid w) (w_reg w) else w_reg w) (uid_of f) (fd_of f) (q_length q) (q_off q) (q_shared q)) as C.
    destruct (try_locking_range _ _ _ _ _ _) as [[[|] | e] reg]; cbv zeta.
    - exact (KE (set_reg w reg) H).
    - destruct (low_level_blocking f q).
      + unfold wait_count, add_waiting. cbn [w_reg set_reg]. destruct (r_map reg (uid_of f)) as [e|] eqn:E; [|contradiction].
        apply NX; [exact H|]. intros _. unfold entered. cbn [w_reg set_reg]. rewrite reg_set_same. discriminate.
      + apply SL; [exact H|discriminate].
    - rewrite C. apply done_err; auto. }
  intros ph w H En. destruct ph; cbn [one_turn].
  - exact (RE true w H).
  - unfold wait_count, add_waiting. specialize (En eq_refl). unfold entered in En. destruct (r_map (w_reg w) (uid_of f)) as [e|]; [|contradiction].
    exact (RE false (set_reg w _) H).
  - exact (KE w H).
  - exact (AT w H).
Qed.
Lemma lock_loop_done q : forall env ph w, sane w -> (ph = PhRegWait -> entered w (uid_of f)) ->
  done (lock_loop f q env ph w).
Proof.
  induction env as [|ev env IH]; intros ph w H En; rewrite lock_loop_turn; apply one_turn_done; try assumption.
  - intros ph' w' H' _. cbn [after]. apply done_err; auto.
  - intros ph' w' H' En'. cbn [after]. apply IH.
    + exact (apply_env_sane (uid_of f) (fd_of f) ev w' H').
    + intros E. exact (apply_env_entered (uid_of f) (fd_of f) ev w' (En' E)).
Qed.

Lemma abs_offset_wp off wh w : sane w -> wp sane P (abs_offset f off wh) w (fun _ _ => True).
Proof.
  intros H. unfold abs_offset. cbv zeta. destruct (wh =? 0); [apply wp_ret; auto|]. destruct (wh =? 1).
  - apply wp_bind. eapply (wp_os P P_os); [exact (lseek_wp (fd_of f) 0 1 w H)|]. intros p w' H' _ _. apply wp_ret; auto.
  - apply wp_bind. eapply wp_post; [exact (inner_size_wp P f P_os w H)|]. intros p w' H' _ _. apply wp_ret; auto.
Qed.
Lemma raw_lock_file_wp t l o wh sh w : sane w -> wp sane P (raw_lock_file f t l o wh sh) w (fun _ _ => True).
Proof.
  intros H. unfold raw_lock_file. apply wp_bind. eapply wp_post; [exact (check_seekable_wp P f P_unsupported P_closed w H)|]. intros _ w' _ [-> _] _.
  destruct (bad_nonneg t); [apply wp_raise; auto|]. destruct (bad_nonneg l); [apply wp_raise; auto|].
  destruct (match o with PBad => true | _ => false end); [apply wp_raise; auto|]. destruct (negb (seek_value wh)); [apply wp_raise; auto|].
  assert (G : forall s, wp sane P (if (s && negb (f_readable f)) || (negb s && negb (f_writable f)) then raise (EOS 0) else
     off <- abs_offset f o wh ;;
        (fun w =>
           let q := mkReq (parg_opt l) off s (parg_opt t) (w_clock w) in
           match lock_loop f q (w_env w) PhReg w with
           | (Ok _, w') => (Ok (parg_opt l, off), w')
           | (Err e, w') => (Err e, w')
           end)) w (fun _ _ => True)).
  { intros s. destruct (_ || _); [apply wp_raise; auto|]. apply wp_bind. eapply wp_post; [exact (abs_offset_wp o wh w H)|].
    intros off w1 H1 _ _. unfold wp. cbv zeta.
    pose proof (lock_loop_done (mkReq (parg_opt l) off s (parg_opt t) (w_clock w1)) (w_env w1) PhReg w1 H1 ltac:(discriminate)) as [D1 D2].
    destruct (lock_loop _ _ _ _ _) as [[a | e] w2]; (split; [exact D1|]); [exact Logic.I|exact (D2 e eq_refl)]. }
  destruct sh as [|b|]; cbv zeta; [exact (G _)|exact (G _)|apply wp_raise; auto].
Qed.
Lemma raw_unlock_file_wp l o wh w : sane w -> wp sane P (raw_unlock_file f l o wh) w (fun _ _ => True).
Proof.
  intros H. unfold raw_unlock_file. apply wp_bind. eapply wp_post; [exact (check_seekable_wp P f P_unsupported P_closed w H)|]. intros _ w' _ [-> _] _.
  destruct (bad_nonneg l); [apply wp_raise; auto|]. destruct (bad_nonneg o); [apply wp_raise; auto|]. destruct (negb (seek_value wh)); [apply wp_raise; auto|].
  apply wp_bind. eapply wp_post; [exact (abs_offset_wp o wh w H)|]. intros off w1 H1 _ _.
  apply wp_bind. apply wp_post with (Q := fun _ _ => True).
  { unfold wp, unregister_file_lock.
    pose proof (try_unlocking_cases (check_forking (w_pid w1) (w_reg w1)) (uid_of f) (fd_of f) (parg_opt l) off) as C.
    destruct (try_unlocking_range _ _ _ _ _) as [[[a | e] reg] n]; (split; [exact H1|]); [exact Logic.I|rewrite C; exact P_runtime]. }
  intros _ w2 H2 _ _. eapply (wp_os P P_os); [exact (inner_file_unlock_wp f (parg_opt l) off w2 H2)|]. auto.
Qed.
End Locks.

(** * Buffered streams *)
Section Buffers.
Variable P : exn -> Prop.
Variable f : rawio.
Hypothesis P_os : forall n, P (EOS n).
Hypothesis P_unsupported : P EUnsupported.
Hypothesis P_closed : f_closed f = true -> P EValue.
Hypothesis P_blocking : forall n, P (EBlocking n).

Definition Ib (b : bstate) : Prop := sane (b_w b) /\ b_raw b = f.
(** What can still be read from the stream. *)
Definition mu (b : bstate) : nat := (rest (fd_of f) (b_w b) + length (unread b) + length (b_wbuf b))%nat.

Lemma on_raw_wp {A} (m : rawio -> M A) b (Q : A -> world -> Prop) : Ib b -> wp sane P (m f) (b_w b) Q ->
  wp Ib P (on_raw m) b (fun a b' => b' = set_world b (b_w b') /\ Q a (b_w b')).
Proof.
  intros [H E] G. unfold wp, on_raw. unfold wp in G. rewrite E. destruct (m f (b_w b)) as [[a | e] w'].
  - destruct G as [G1 G2]. split; [split; [exact G1|exact E]|]. split; [reflexivity|exact G2].
  - destruct G as [G1 G2]. split; [split; [exact G1|exact E]|exact G2].
Qed.

Lemma b_check_closed_wp b : Ib b -> wp Ib P b_check_closed b (fun _ b' => b' = b).
Proof. intros [H E]. unfold wp, b_check_closed. rewrite E. destruct (f_closed f) eqn:C; (split; [split; [exact H|exact E]|]); auto. Qed.

Lemma flush_loop_wp : forall k b, Ib b -> (length (b_wbuf b) < k)%nat ->
  wp Ib P (flush_loop k) b (fun _ b' => b_wbuf b' = [] /\ unread b' = unread b /\ b_size b' = b_size b /\ (mu b' <= mu b)%nat).
Proof.
  induction k as [|k IH]; intros b I L; [lia|]. unfold wp. cbn [flush_loop].
  destruct (b_wbuf b) as [|x l] eqn:Ew; [split; [exact I|]; split; [exact Ew|auto]|].
  match goal with |- match ?m b with _ => _ end => change (wp Ib P m b (fun _ b' => b_wbuf b' = [] /\ unread b' = unread b /\ b_size b' = b_size b /\ (mu b' <= mu b)%nat)) end.
  apply wp_bind. eapply wp_post; [apply on_raw_wp; [exact I|exact (raw_write_wp P f P_os P_unsupported P_closed (x :: l) (b_w b) (proj1 I))]|].
  intros [n|] b1 I1 [Eb Q] _; [|apply wp_raise; auto]. cbv beta iota in Q. destruct Q as (Q1 & Q2 & Q3). specialize (Q2 ltac:(discriminate)).
  destruct ((Z.of_nat (length (x :: l)) <? n) || (n <? 0)) eqn:Eg; [apply wp_raise; auto|].
  apply wp_bind. unfold wp at 1. split; [exact I1|]. intros I2.
  assert (W1 : b_wbuf b1 = x :: l) by (rewrite Eb; exact Ew).
  assert (Lk : (length (skipn (Z.to_nat n) (b_wbuf b1)) + Z.to_nat n = length (b_wbuf b))%nat).
  { rewrite W1, Ew, skipn_length. lia. }
  eapply wp_post; [apply IH; [exact I2|cbn [b_wbuf set_wbuf]; rewrite Ew in Lk; rewrite ?Ew in L; lia]|].
  intros _ b3 _ (F1 & F2 & F3 & F4). split; [exact F1|]. cbn [b_size set_wbuf] in F3.
  assert (U : unread (set_wbuf b1 (skipn (Z.to_nat n) (b_wbuf b1))) = unread b) by (rewrite Eb; reflexivity).
  rewrite U in F2. split; [exact F2|]. split; [rewrite F3, Eb; reflexivity|].
  etransitivity; [exact F4|]. unfold mu. rewrite U. cbn [b_w b_wbuf set_wbuf]. lia.
Qed.
Lemma flush_unlocked_wp b : Ib b ->
  wp Ib P flush_unlocked b (fun _ b' => b_wbuf b' = [] /\ unread b' = unread b /\ b_size b' = b_size b /\ (mu b' <= mu b)%nat).
Proof.
  intros I. unfold flush_unlocked. apply wp_bind. eapply wp_post; [exact (b_check_closed_wp b I)|]. intros _ b' _ -> _.
  exact (flush_loop_wp (S (length (b_wbuf b))) b I (Nat.lt_succ_diag_r _)).
Qed.
Lemma flush_true b : Ib b -> wp Ib P flush_unlocked b (fun _ _ => True).
Proof. intros I. eapply wp_post; [exact (flush_unlocked_wp b I)|]. auto. Qed.

Lemma b_flush_wp k b : Ib b -> wp Ib P (b_flush k) b (fun _ _ => True).
Proof.
  intros I. destruct k; cbn [b_flush]; try (exact (flush_true b I)).
  apply wp_bind. eapply wp_post; [exact (b_check_closed_wp b I)|]. intros _ b' _ -> _.
  eapply wp_post; [apply on_raw_wp; [exact I|exact (check_closed_wp P f P_closed (b_w b) (proj1 I))]|]. auto.
Qed.

Lemma writer_write_wp d b : Ib b -> wp Ib P (writer_write d) b (fun _ _ => True).
Proof.
  intros I. unfold writer_write. apply wp_bind. eapply wp_post; [exact (b_check_closed_wp b I)|]. intros _ b' _ -> _.
  apply wp_bind. apply wp_post with (Q := fun _ _ => True).
  { unfold wp. destruct (b_size b <? Z.of_nat (length (b_wbuf b))); [exact (flush_true b I)|split; [exact I|exact Logic.I]]. }
  intros _ b1 I1 _ _. apply wp_bind. unfold wp at 1. split; [exact I1|]. intros I2. unfold wp. cbv zeta.
  set (b2 := set_wbuf b1 (b_wbuf b1 ++ d)) in *.
  destruct (b_size b2 <? Z.of_nat (length (b_wbuf b2))); [|split; [exact I2|exact Logic.I]].
  pose proof (flush_true b2 I2) as G. unfold wp in G. destruct (flush_unlocked b2) as [[a | e] b3]; destruct G as [G1 G2]; [split; auto|].
  destruct e; try (split; assumption). destruct (b_size b3 <? Z.of_nat (length (b_wbuf b3))); (split; [exact G1|]); auto.
Qed.

Lemma undo_readahead_wp b : Ib b -> wp Ib P undo_readahead b (fun _ _ => True).
Proof.
  intros I. unfold wp, undo_readahead.
  match goal with |- match ?m b with _ => _ end => change (wp Ib P m b (fun _ _ => True)) end.
  apply wp_bind. eapply wp_post; [apply on_raw_wp; [exact I|exact (raw_seek_wp P f P_os P_closed _ 1 (b_w b) (proj1 I))]|].
  intros n b' I' _ _. apply wp_ret; auto.
Qed.
Lemma reset_wp b : Ib b -> wp Ib P reset_read_buf b (fun _ _ => True).
Proof. intros I. split; [exact I|exact Logic.I]. Qed.

Lemma b_write_wp k d b : Ib b -> wp Ib P (b_write k d) b (fun _ _ => True).
Proof.
  intros I. destruct k; cbn [b_write]; [apply wp_raise; auto|exact (writer_write_wp d b I)|].
  apply wp_bind. apply wp_post with (Q := fun _ _ => True).
  { unfold wp. destruct (b_rbuf b); [split; [exact I|exact Logic.I]|].
    match goal with |- match ?m b with _ => _ end => change (wp Ib P m b (fun _ _ => True)) end.
    apply wp_bind. eapply wp_post; [exact (undo_readahead_wp b I)|]. intros _ b' I' _ _. exact (reset_wp b' I'). }
  intros _ b1 I1 _ _. exact (writer_write_wp d b1 I1).
Qed.

Lemma mixin_seek_wp pos wh b : Ib b -> wp Ib P (mixin_seek pos wh) b (fun _ _ => True).
Proof.
  intros I. unfold mixin_seek. apply wp_bind. eapply wp_post; [apply on_raw_wp; [exact I|exact (raw_seek_wp P f P_os P_closed pos wh (b_w b) (proj1 I))]|].
  intros n b' I' _ _. destruct (n <? 0); [apply wp_raise; auto|apply wp_ret; auto].
Qed.
Lemma mixin_tell_wp b : Ib b -> wp Ib P mixin_tell b (fun _ _ => True).
Proof. exact (mixin_seek_wp 0 1 b). Qed.

Lemma b_seek_wp k pos wh b : (valid_whence wh = false -> P EValue) -> Ib b -> wp Ib P (b_seek k pos wh) b (fun _ _ => True).
Proof.
  intros PV I. unfold b_seek. destruct (valid_whence wh); [|apply wp_raise; auto]. cbn [negb]. destruct k.
  - apply wp_bind. eapply wp_post; [exact (b_check_closed_wp b I)|]. intros _ b' _ -> _. unfold wp.
    match goal with |- match ?m b with _ => _ end => change (wp Ib P m b (fun _ _ => True)) end.
    apply wp_bind. eapply wp_post; [exact (mixin_seek_wp _ wh b I)|]. intros n b1 I1 _ _.
    apply wp_bind. eapply wp_post; [exact (reset_wp b1 I1)|]. intros _ b2 I2 _ _. apply wp_ret; auto.
  - apply wp_bind. eapply wp_post; [exact (flush_true b I)|]. intros _ b1 I1 _ _. exact (mixin_seek_wp pos wh b1 I1).
  - apply wp_bind. eapply wp_post; [exact (flush_true b I)|]. intros _ b1 I1 _ _.
    apply wp_bind. apply wp_post with (Q := fun _ _ => True).
    { unfold wp. destruct (b_rbuf b1); [split; [exact I1|exact Logic.I]|exact (undo_readahead_wp b1 I1)]. }
    intros _ b2 I2 _ _. apply wp_bind. eapply wp_post; [apply on_raw_wp; [exact I2|exact (raw_seek_wp P f P_os P_closed pos wh (b_w b2) (proj1 I2))]|].
    intros n b3 I3 _ _. apply wp_bind. eapply wp_post; [exact (reset_wp b3 I3)|]. intros _ b4 I4 _ _.
    destruct (n <? 0); [apply wp_raise; auto|apply wp_ret; auto].
Qed.

Lemma reader_tell_wp b : Ib b -> wp Ib P reader_tell b (fun _ _ => True).
Proof.
  intros I. unfold reader_tell. apply wp_bind. eapply wp_post; [exact (mixin_tell_wp b I)|]. intros n b1 I1 _ _. split; [exact I1|exact Logic.I].
Qed.
Lemma writer_tell_wp b : Ib b -> wp Ib P writer_tell b (fun _ _ => True).
Proof.
  intros I. unfold writer_tell. apply wp_bind. eapply wp_post; [exact (mixin_tell_wp b I)|]. intros n b1 I1 _ _. split; [exact I1|exact Logic.I].
Qed.
Lemma b_tell_wp k b : Ib b -> wp Ib P (b_tell k) b (fun _ _ => True).
Proof.
  intros I. destruct k; cbn [b_tell]; [exact (reader_tell_wp b I)|exact (writer_tell_wp b I)|].
  unfold wp. destruct (b_wbuf b); [exact (reader_tell_wp b I)|exact (writer_tell_wp b I)].
Qed.

Lemma writer_truncate_wp pos b : Ib b -> wp Ib P (writer_truncate pos) b (fun _ _ => True).
Proof.
  intros I. unfold writer_truncate. apply wp_bind. eapply wp_post; [exact (flush_true b I)|]. intros _ b1 I1 _ _.
  apply wp_bind. apply wp_post with (Q := fun _ _ => True).
  { destruct pos; [apply wp_ret; auto|]. eapply wp_post; [apply on_raw_wp; [exact I1|exact (raw_tell_wp P f P_os P_closed (b_w b1) (proj1 I1))]|]. auto. }
  intros p b2 I2 _ _. eapply wp_post; [apply on_raw_wp; [exact I2|exact (raw_truncate_wp P f P_os P_unsupported P_closed (Some p) (b_w b2) (proj1 I2))]|]. auto.
Qed.
Lemma b_truncate_wp k pos b : Ib b -> wp Ib P (b_truncate k pos) b (fun _ _ => True).
Proof.
  intros I. destruct k; cbn [b_truncate].
  - apply wp_bind. eapply wp_post; [exact (b_check_closed_wp b I)|]. intros _ b1 I1 _ _. apply wp_raise; auto.
  - exact (writer_truncate_wp pos b I).
  - apply wp_bind. apply wp_post with (Q := fun _ _ => True).
    { destruct pos; [apply wp_ret; auto|exact (b_tell_wp BRandom b I)]. }
    intros p b1 I1 _ _. exact (writer_truncate_wp (Some p) b1 I1).
Qed.

(** ** Reading *)

Lemma read_fuel_eq b : Ib b -> exists n, read_fuel b = (Ok (S n), b) /\ (rest (fd_of f) (b_w b) <= n)%nat.
Proof.
  intros [H E]. unfold read_fuel, bind, on_raw. rewrite E. destruct (readall_fuel_eq f (b_w b)) as (n & En & L). rewrite En.
  exists n. split; [|exact L]. unfold ret. f_equal. destruct b; reflexivity.
Qed.

Lemma fill_loop_wp : forall k wanted n out b, Ib b -> (rest (fd_of f) (b_w b) < k)%nat ->
  wp Ib P (fill_loop k wanted n out) b (fun r b' => b' = set_world b (b_w b') /\
    (length (fst r) + rest (fd_of f) (b_w b') <= length out + rest (fd_of f) (b_w b))%nat /\
    (match snd r with Some l => l = [] | None => True end)).
Proof.
  induction k as [|k IH]; intros wanted n out b I L; [lia|]. cbn [fill_loop].
  assert (B0 : b = set_world b (b_w b)) by (destruct b; reflexivity).
  destruct (Z.of_nat (length out) <? n); [|apply wp_ret; [exact I|]; cbn [fst snd]; auto].
  apply wp_bind. eapply wp_post; [apply on_raw_wp; [exact I|exact (raw_read_wp P f P_os P_unsupported P_closed (Some wanted) (b_w b) (proj1 I))]|].
  intros c b1 I1 [Eb T] _. unfold took in T. destruct c as [[|x c]|].
  - apply wp_ret; [exact I1|]. cbn [fst snd length] in *. split; [exact Eb|]. split; [lia|auto].
  - cbn [length] in T. eapply wp_post; [apply IH; [exact I1|lia]|]. intros r b2 I2 (E2 & L2 & N2). cbn [fst] in *.
    split; [rewrite E2 at 1; rewrite Eb at 1; reflexivity|]. split; [|exact N2]. rewrite app_length in L2. cbn [length] in L2. lia.
  - apply wp_ret; [exact I1|]. cbn [fst snd length] in *. split; [exact Eb|]. split; [lia|auto].
Qed.

(** A read gives what could be read. *)
Definition size_of (d : option (list byte)) : nat := match d with Some l => length l | None => O end.
Definition lowers (b : bstate) (d : option (list byte)) (b' : bstate) : Prop := (size_of d + mu b' <= mu b)%nat.

Lemma read_unlocked_wp n b : Ib b -> wp Ib P (read_unlocked n) b (lowers b).
Proof.
  intros I. unfold wp, read_unlocked. cbv zeta. destruct (match n with None => true | Some k => k =? -1 end).
  - match goal with |- match ?m b with _ => _ end => change (wp Ib P m b (lowers b)) end.
    apply wp_bind. unfold wp at 1, reset_read_buf. split; [exact I|]. intros I1.
    apply wp_bind. eapply wp_post; [apply on_raw_wp; [exact I1|exact (raw_readall_wp P f P_os P_unsupported P_closed (b_w b) (proj1 I))]|].
    intros c b1 I2 [Eb T] _. unfold took in T.
    assert (M : mu b1 = (rest (fd_of f) (b_w b1) + length (b_wbuf b))%nat).
    { unfold mu. rewrite Eb. cbn [b_w set_world b_wbuf set_rbuf]. unfold unread. cbn [b_rbuf b_rpos set_world set_rbuf]. cbn [skipn length]. lia. }
    destruct c as [c|].
    + apply wp_ret; [exact I2|]. unfold lowers. rewrite M. cbn [size_of]. rewrite app_length. unfold mu. lia.
    + apply wp_ret; [exact I2|]. unfold lowers. rewrite M. unfold mu. destruct (unread b) as [|x l]; cbn [size_of length] in *; lia.
  - set (n0 := match n with Some k => k | None => 0 end). destruct (n0 <=? Z.of_nat (length (unread b))) eqn:E.
    + split; [exact I|]. unfold lowers, mu. cbn [size_of b_w set_rbuf b_wbuf]. unfold unread. cbn [b_rbuf b_rpos set_rbuf].
      rewrite firstn_length, !skipn_length. unfold unread in E. rewrite skipn_length in E. lia.
    + match goal with |- match ?m b with _ => _ end => change (wp Ib P m b (lowers b)) end.
      apply wp_bind. destruct (read_fuel_eq b I) as (fu & Ef & Lf). unfold wp at 1. rewrite Ef. split; [exact I|]. intros _.
      apply wp_bind. eapply wp_post; [apply (fill_loop_wp (S fu) _ n0 (unread b) b I); lia|].
      intros [out nodata] b1 I1 (Eb & L1 & N1) _. cbn [fst snd] in *. cbv zeta.
      apply wp_bind. unfold wp at 1. split; [exact I1|]. intros I2. apply wp_ret; [exact I2|].
      unfold lowers, mu. cbn [b_w set_rbuf b_wbuf]. unfold unread at 1. cbn [b_rbuf b_rpos set_rbuf skipn].
      assert (W : b_wbuf b1 = b_wbuf b) by (rewrite Eb; reflexivity). rewrite W.
      set (m := Z.to_nat (Z.min n0 (Z.of_nat (length out)))). pose proof (firstn_skipn m out) as FS.
      apply (f_equal (@length Z)) in FS. rewrite app_length in FS.
      destruct out as [|x out']; [|cbn [size_of]; lia].
      destruct nodata as [l|]; [rewrite N1|]; cbn [size_of length] in *; rewrite ?skipn_length in *; cbn [length] in *; lia.
Qed.
Lemma reader_read_wp n b : (match n with Some k => k <? -1 | None => false end = true -> P EValue) -> Ib b -> wp Ib P (reader_read n) b (lowers b).
Proof.
  intros PV I. unfold reader_read. destruct (match n with Some k => k <? -1 | None => false end); [apply wp_raise; auto|exact (read_unlocked_wp n b I)].
Qed.
Lemma b_read_wp k n b : (match n with Some k => k <? -1 | None => false end = true -> P EValue) -> Ib b -> wp Ib P (b_read k n) b (lowers b).
Proof.
  intros PV I. destruct k; cbn [b_read]; [exact (reader_read_wp n b PV I)|apply wp_raise; auto|].
  apply wp_bind. eapply wp_post; [exact (flush_unlocked_wp b I)|]. intros _ b1 I1 (_ & _ & _ & L) _.
  eapply wp_post; [apply reader_read_wp; [|exact I1]|].
  - destruct n as [z|]; [exact PV|discriminate].
  - intros d b2 _. unfold lowers. lia.
Qed.

Lemma peek_unlocked_wp n b : Ib b -> wp Ib P (peek_unlocked n) b (fun d b' => d = unread b' /\ (mu b' <= mu b)%nat /\ b_size b' = b_size b
    /\ b_wbuf b' = b_wbuf b).
Proof.
  intros I. unfold peek_unlocked. apply wp_bind.
  apply wp_post with (Q := fun _ b' => (mu b' <= mu b)%nat /\ b_size b' = b_size b /\ b_wbuf b' = b_wbuf b).
  - unfold wp. cbv zeta. destruct (_ || _); [|split; [exact I|auto]].
    match goal with |- match ?m b with _ => _ end => change (wp Ib P m b (fun _ b' => (mu b' <= mu b)%nat /\ b_size b' = b_size b /\ b_wbuf b' = b_wbuf b)) end.
    apply wp_bind. eapply wp_post; [apply on_raw_wp; [exact I|exact (raw_read_wp P f P_os P_unsupported P_closed _ (b_w b) (proj1 I))]|].
    intros c b1 I1 [Eb T] _. unfold took in T.
    assert (U : unread b1 = unread b) by (rewrite Eb; reflexivity). assert (W : b_wbuf b1 = b_wbuf b) by (rewrite Eb; reflexivity).
    assert (Sz : b_size b1 = b_size b) by (rewrite Eb; reflexivity).
    assert (K : forall w' : unit, (mu b1 <= mu b)%nat /\ b_size b1 = b_size b /\ b_wbuf b1 = b_wbuf b).
    { intros _. split; [|auto]. unfold mu. rewrite U, W. lia. }
    destruct c as [[|x c]|]; [apply wp_ret; [exact I1|exact (K tt)]| |apply wp_ret; [exact I1|exact (K tt)]].
    split; [exact I1|]. split; [|split; [exact Sz|exact W]]. unfold mu. cbn [b_w set_rbuf b_wbuf]. rewrite W, U.
    unfold unread at 1. cbn [b_rbuf b_rpos set_rbuf skipn]. rewrite app_length. lia.
  - intros _ b1 I1 (L & Sz & W) _. split; [exact I1|]. auto.
Qed.
Lemma reader_peek_wp n b : Ib b -> wp Ib P (reader_peek n) b (fun d b' => d = unread b' /\ (mu b' <= mu b)%nat).
Proof.
  intros I. unfold reader_peek. apply wp_bind. eapply wp_post; [exact (b_check_closed_wp b I)|]. intros _ b' _ -> _.
  eapply wp_post; [exact (peek_unlocked_wp n b I)|]. intros d b1 _ (A & B & _). auto.
Qed.
Lemma b_peek_wp k n b : k <> BWriter -> Ib b -> wp Ib P (b_peek k n) b (fun d b' => d = unread b' /\ (mu b' <= mu b)%nat).
Proof.
  intros K I. destruct k; [exact (reader_peek_wp n b I)|contradiction|]. cbn [b_peek].
  apply wp_bind. eapply wp_post; [exact (flush_unlocked_wp b I)|]. intros _ b1 I1 (_ & _ & _ & L) _.
  eapply wp_post; [exact (reader_peek_wp n b1 I1)|]. intros d b2 _ [A B]. split; [exact A|lia].
Qed.

Lemma reader_read1_wp n b : Ib b -> wp Ib P (reader_read1 n) b (fun _ _ => True).
Proof.
  intros I. unfold reader_read1. apply wp_bind. eapply wp_post; [exact (b_check_closed_wp b I)|]. intros _ b' _ -> _.
  unfold wp. cbv zeta. destruct ((if n <? 0 then b_size b else n) =? 0); [split; [exact I|exact Logic.I]|].
  match goal with |- match ?m b with _ => _ end => change (wp Ib P m b (fun _ _ => True)) end.
  apply wp_bind. eapply wp_post; [exact (peek_unlocked_wp 1 b I)|]. intros _ b1 I1 _ _.
  eapply wp_post; [exact (read_unlocked_wp _ b1 I1)|]. auto.
Qed.
Lemma b_read1_wp k n b : Ib b -> wp Ib P (b_read1 k n) b (fun _ _ => True).
Proof.
  intros I. destruct k; cbn [b_read1]; [exact (reader_read1_wp n b I)|apply wp_raise; auto|].
  apply wp_bind. eapply wp_post; [exact (flush_true b I)|]. intros _ b1 I1 _ _. exact (reader_read1_wp n b1 I1).
Qed.

Lemma readinto_loop_wp : P EValue -> P EType -> forall k n r1 out b, Ib b -> (rest (fd_of f) (b_w b) < k)%nat ->
  wp Ib P (readinto_loop k n r1 out) b (fun _ _ => True).
Proof.
  intros PV PT. induction k as [|k IH]; intros n r1 out b I L; [lia|]. cbn [readinto_loop].
  destruct (Z.of_nat (length out) <? n) eqn:En; [|apply wp_ret; auto]. apply Z.ltb_lt in En.
  unfold wp. cbv zeta. set (avail := Z.min (Z.of_nat (length (unread b))) n).
  destruct (n - Z.of_nat (length out) <? avail) eqn:Ea; [split; [exact I|exact PV]|]. apply Z.ltb_ge in Ea.
  set (out1 := out ++ firstn (Z.to_nat avail) (unread b)). set (b1 := set_rbuf b (b_rbuf b) (b_rpos b + Z.to_nat avail)).
  assert (I1 : Ib b1) by exact I.
  destruct (negb (avail =? 0) && (Z.of_nat (length out1) =? n)) eqn:Ef; [split; [exact I1|exact Logic.I]|].
  assert (U1 : unread b1 = []).
  { assert (Ha : avail = Z.of_nat (length (unread b))).
    { unfold avail in *. destruct (Z.min_spec (Z.of_nat (length (unread b))) n) as [[A ->]|[A B]]; [reflexivity|]. rewrite B in *.
      assert (Eo : length out = O) by lia. apply andb_false_iff in Ef. destruct Ef as [Ef|Ef].
      - apply negb_false_iff, Z.eqb_eq in Ef. lia.
      - apply Z.eqb_neq in Ef. exfalso. apply Ef. unfold out1. rewrite app_length, firstn_length, Eo. lia. }
    unfold unread, b1. cbn [b_rbuf b_rpos set_rbuf]. apply skipn_all2. unfold unread in Ha. rewrite skipn_length in Ha. lia. }
  assert (AG : forall o b', Ib b' -> (rest (fd_of f) (b_w b') < k)%nat ->
     wp Ib P (if r1 && negb (is_nil o) then ret o else readinto_loop k n r1 o) b' (fun _ _ => True)).
  { intros o b' I' L'. destruct (r1 && negb (is_nil o)); [apply wp_ret; auto|exact (IH n r1 o b' I' L')]. }
  match goal with |- match ?m b1 with _ => _ end => change (wp Ib P m b1 (fun _ _ => True)) end.
  destruct (b_size b <? n - Z.of_nat (length out1)).
  - apply wp_bind. eapply wp_post; [apply on_raw_wp; [exact I1|exact (raw_readinto_wp P f P_os P_unsupported P_closed _ (b_w b1) PT (proj1 I1))]|].
    intros d b2 I2 [Eb T] _. unfold took in T. destruct d as [|x d]; [apply wp_ret; auto|]. apply AG; [exact I2|].
    cbn [length] in T. change (b_w b1) with (b_w b) in T. lia.
  - destruct (r1 && negb (is_nil out1)) eqn:Er; cbn [negb].
    + apply wp_ret; auto.
    + apply wp_bind. eapply wp_post; [exact (peek_unlocked_wp 1 b1 I1)|]. intros d b2 I2 (Ed & Lm & _ & W) _.
      destruct d as [|x d]; [apply wp_ret; auto|]. first [apply AG | apply IH]; [exact I2|].
      unfold mu in Lm. rewrite <- Ed, U1, W in Lm. cbn [length] in Lm. change (b_w b1) with (b_w b) in Lm. lia.
Qed.
Lemma reader_readinto_wp n r1 b : P EValue -> P EType -> Ib b -> wp Ib P (reader_readinto n r1) b (fun _ _ => True).
Proof.
  intros PV PT I. unfold reader_readinto. apply wp_bind. eapply wp_post; [exact (b_check_closed_wp b I)|]. intros _ b' _ -> _.
  destruct (n =? 0); [apply wp_ret; auto|]. apply wp_bind. destruct (read_fuel_eq b I) as (fu & Ef & Lf). unfold wp at 1. rewrite Ef.
  split; [exact I|]. intros _. apply (readinto_loop_wp PV PT _ n r1 [] b I). lia.
Qed.
Lemma b_readinto_wp k n r1 b : P EValue -> P EType -> Ib b -> wp Ib P (b_readinto k n r1) b (fun _ _ => True).
Proof.
  intros PV PT I. destruct k; cbn [b_readinto]; [exact (reader_readinto_wp n r1 b PV PT I)|apply wp_raise; auto|].
  apply wp_bind. eapply wp_post; [exact (flush_true b I)|]. intros _ b1 I1 _ _. exact (reader_readinto_wp n r1 b1 PV PT I1).
Qed.

Lemma newline_len_pos l : newline_len l = O \/ (1 <= newline_len l)%nat.
Proof. destruct (newline_len l); [left; reflexivity|right; lia]. Qed.

Lemma readline_loop_wp k : k <> BWriter -> forall fu size res b, Ib b -> (mu b < fu)%nat ->
  wp Ib P (readline_loop fu k size res) b (fun d b' => (length d + mu b' <= length res + mu b)%nat).
Proof.
  intros K. induction fu as [|fu IH]; intros size res b I L; [lia|]. cbn [readline_loop].
  destruct ((size <? 0) || (Z.of_nat (length res) <? size)); [|apply wp_ret; auto].
  apply wp_bind. eapply wp_post; [exact (b_peek_wp k 1 b K I)|]. intros ahead b1 I1 [_ L1] _. cbv zeta.
  match goal with |- context [b_read k (Some ?n)] => set (m := n) end.
  assert (Hm : -1 <= m).
  { unfold m. destruct ahead as [|x l]; [lia|]. set (nn := match newline_len (x :: l) with O => _ | S _ => _ end).
    assert (0 <= nn) by (unfold nn; destruct (newline_len (x :: l)); lia). destruct (0 <=? size) eqn:E; [apply Z.leb_le in E; lia|lia]. }
  apply wp_bind. eapply wp_post; [apply b_read_wp; [|exact I1]|].
  { intros X. apply Z.ltb_lt in X. lia. }
  intros d b2 I2 T _. unfold lowers in T. destruct d as [[|x d]|]; cbn [size_of length] in T.
  - apply wp_ret; [exact I2|]. lia.
  - destruct (last (x :: d) 0 =? 10).
    + apply wp_ret; [exact I2|]. rewrite app_length. cbn [length]. lia.
    + eapply wp_post; [apply IH; [exact I2|lia]|]. intros r b3 _. rewrite app_length. cbn [length]. lia.
  - apply wp_ret; [exact I2|]. lia.
Qed.
Lemma fuel_mu b fu : (rest (fd_of f) (b_w b) <= fu)%nat -> (mu b < S fu + length (unread b) + length (b_wbuf b) + 1)%nat.
Proof. unfold mu. lia. Qed.
Lemma b_readline_wp k size b : Ib b -> wp Ib P (b_readline k size) b (fun d b' => (length d + mu b' <= mu b)%nat).
Proof.
  intros I.
  assert (G : k <> BWriter -> wp Ib P (fuel <- read_fuel ;; fun b => readline_loop (fuel + length (unread b) + length (b_wbuf b) + 1)%nat k size [] b) b (fun d b' => (length d + mu b' <= mu b)%nat)).
  { intros K. apply wp_bind. destruct (read_fuel_eq b I) as (fu & Ef & Lf). unfold wp at 1. rewrite Ef. split; [exact I|]. intros _.
    exact (readline_loop_wp k K _ size [] b I (fuel_mu b fu Lf)). }
  destruct k; cbn [b_readline]; [apply G; discriminate| |apply G; discriminate].
  destruct (size =? 0); [apply wp_ret; [exact I|cbn [length]; lia]|apply wp_raise; auto].
Qed.
Lemma lines_loop_wp k hint : forall fu n acc b, Ib b -> (mu b < fu)%nat -> wp Ib P (lines_loop fu k hint n acc) b (fun _ _ => True).
Proof.
  induction fu as [|fu IH]; intros n acc b I L; [lia|]. cbn [lines_loop]. apply wp_bind.
  eapply wp_post; [exact (b_readline_wp k (-1) b I)|]. intros line b1 I1 T _. destruct line as [|x l]; [apply wp_ret; auto|]. cbv zeta.
  destruct (_ && _); [apply wp_ret; auto|]. apply IH; [exact I1|]. cbn [length] in T. lia.
Qed.
Lemma b_readlines_wp k hint b : Ib b -> wp Ib P (b_readlines k hint) b (fun _ _ => True).
Proof.
  intros I. unfold b_readlines. apply wp_bind. eapply wp_post; [exact (b_check_closed_wp b I)|]. intros _ b' _ -> _.
  apply wp_bind. destruct (read_fuel_eq b I) as (fu & Ef & Lf). unfold wp at 1. rewrite Ef. split; [exact I|]. intros _.
  exact (lines_loop_wp k hint _ 0 [] b I (fuel_mu b fu Lf)).
Qed.
Lemma b_writelines_wp k ds b : Ib b -> wp Ib P (b_writelines k ds) b (fun _ _ => True).
Proof.
  intros I. unfold b_writelines. apply wp_bind. eapply wp_post; [exact (b_check_closed_wp b I)|]. intros _ b' _ -> _. revert b I.
  induction ds as [|d ds IH]; intros b I; cbn [write_all]; [apply wp_ret; auto|].
  apply wp_bind. eapply wp_post; [exact (b_write_wp k d b I)|]. intros _ b1 I1 _ _. exact (IH b1 I1).
Qed.

Lemma b_fsize_wp k b : Ib b -> wp Ib P (b_fsize k) b (fun _ _ => True).
Proof.
  intros I. unfold b_fsize. apply wp_bind. eapply wp_post; [exact (b_flush_wp k b I)|]. intros _ b1 I1 _ _.
  eapply wp_post; [apply on_raw_wp; [exact I1|exact (raw_size_wp P f P_os P_closed (b_w b1) (proj1 I1))]|]. auto.
Qed.
Lemma b_sync_wp h k md fu b : Ib b -> wp Ib P (b_sync h k md fu) b (fun _ _ => True).
Proof.
  intros I. unfold b_sync. apply wp_bind. eapply wp_post; [exact (b_flush_wp k b I)|]. intros _ b1 I1 _ _.
  eapply wp_post; [apply on_raw_wp; [exact I1|exact (raw_sync_wp P f P_os P_closed h md fu (b_w b1) (proj1 I1))]|]. auto.
Qed.

Section BufferedLocks.
Hypothesis P_runtime : P ERuntime.
Hypothesis P_locking : forall n, P (ELocking n).
Hypothesis P_bad : P EBadValue.
Hypothesis P_hang : P EHang.
Hypothesis P_spin : f_spin f < 0 -> P EValue.
Lemma reset_buffers_wp k b : Ib b -> wp Ib P (reset_buffers k) b (fun _ _ => True).
Proof.
  intros I. unfold reset_buffers. apply wp_bind. eapply wp_post; [apply (b_seek_wp k 0 1 b); [discriminate|exact I]|].
  intros n b1 I1 _ _. apply wp_ret; auto.
Qed.
Lemma b_lock_file_wp k t l o wh sh b : Ib b -> wp Ib P (b_lock_file k t l o wh sh) b (fun _ _ => True).
Proof.
  intros I. unfold b_lock_file. apply wp_bind. eapply wp_post; [exact (reset_buffers_wp k b I)|]. intros _ b1 I1 _ _.
  eapply wp_post; [apply on_raw_wp; [exact I1|exact (raw_lock_file_wp P f P_os P_unsupported P_closed P_runtime P_locking P_bad P_hang P_spin t l o wh sh (b_w b1) (proj1 I1))]|]. auto.
Qed.
Lemma b_unlock_file_wp k l o wh b : Ib b -> wp Ib P (b_unlock_file k l o wh) b (fun _ _ => True).
Proof.
  intros I. unfold b_unlock_file. apply wp_bind. eapply wp_post; [exact (reset_buffers_wp k b I)|]. intros _ b1 I1 _ _.
  eapply wp_post; [apply on_raw_wp; [exact I1|exact (raw_unlock_file_wp P f P_os P_unsupported P_closed P_runtime P_bad l o wh (b_w b1) (proj1 I1))]|]. auto.
Qed.
End BufferedLocks.

Lemma b_close_out k b : f_fd f <> Some 0 -> Ib b ->
  sane (b_w (snd (b_close k b))) /\ (b_raw (snd (b_close k b)) = f \/ b_raw (snd (b_close k b)) = set_closed f) /\
  forall e, fst (b_close k b) = Err e -> P e.
Proof.
  intros F I. unfold b_close. destruct (f_closed (b_raw b)); [split; [exact (proj1 I)|split; [left; exact (proj2 I)|discriminate]]|].
  unfold finally. pose proof (b_flush_wp k b I) as G. unfold wp in G. destruct (b_flush k b) as [r b1].
  assert (I1 : Ib b1) by (destruct r; exact (proj1 G)). unfold raw_close_b. rewrite (proj2 I1).
  pose proof (raw_close_wp f (b_w b1) F (proj1 I1)) as C. unfold wp in C. destruct (raw_close f (b_w b1)) as [[a | e] w'].
  - destruct C as [C1 _]. cbn [fst snd b_w b_raw]. split; [exact C1|]. split; [right; reflexivity|]. intros e ->. exact (proj2 G).
  - destruct C as [C1 [n ->]]. cbn [fst snd b_w b_raw]. split; [exact C1|]. split; [right; reflexivity|]. intros e E. injection E as <-. apply P_os.
Qed.
End Buffers.
