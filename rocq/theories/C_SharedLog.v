(** C103: threads write to one stream in append mode while other processes append to the file, without any lock. *)
From Coq Require Import ZArith Ascii String List Bool Lia.
From Verif Require Import M_Base M_Modes M_Registry M_Kernel M_World M_Raw M_Buffered M_Threads S_Bytes S_Raw S_Buffered S_Demo
  P_Bytes P_Raw P_Buffered P_BufRun S_Threads P_Threads C_Buffered S_SharedLog.
Import ListNotations.
Open Scope Z_scope.

(** * Merges *)
Lemma merges_left a : merges a [] a.
Proof. induction a; constructor; auto. Qed.
Lemma merges_right b : merges [] b b.
Proof. induction b; constructor; auto. Qed.
Lemma merges_app a b m a' b' m' : merges a b m -> merges a' b' m' -> merges (a ++ a') (b ++ b') (m ++ m').
Proof. intros H H'. induction H; cbn; auto; constructor; auto. Qed.

Section Log.
Variable f : rawio.
Variable size : Z.
Variable u : uid.
Hypothesis Hsize : 0 < size.

(** The world has the file, with content [F], and the stream's descriptor appends to it. *)
Definition Jw (w : world) (F : list Z) : Prop :=
  exists o i, w_fds w (fd_of f) = Some o /\ o_uid o = u /\ o_app o = true /\ w_inodes w u = Some i /\ n_kind i = KReg /\ n_data i = F.
Definition J (b : bstate) (F : list Z) : Prop := b_raw b = f /\ b_size b = size /\ Jw (b_w b) F.

(** Raw methods that leave the file alone. *)
Definition keeps {A} (m : M A) : Prop := forall w r w' F, Jw w F -> m w = (r, w') -> Jw w' F.
Lemma keeps_ret {A} (a : A) : keeps (ret a).
Proof. intros w r w' F H [= <- <-]. exact H. Qed.
Lemma keeps_raise {A} e : keeps (raise e : M A).
Proof. intros w r w' F H [= <- <-]. exact H. Qed.
Lemma keeps_bind {A C} (m : M A) (k : A -> M C) : keeps m -> (forall a, keeps (k a)) -> keeps (bind m k).
Proof.
  intros Hm Hk w r w' F H. unfold bind. destruct (m w) as [[a|e] w1] eqn:E; intros E2.
  - eapply Hk; [eapply Hm; eauto|eauto].
  - injection E2 as <- <-. eapply Hm; eauto.
Qed.
Lemma Jw_io w F l : Jw w F -> Jw (set_io w l) F.
Proof. intros H. exact H. Qed.
Lemma Jw_pos w F o p : Jw w F -> w_fds w (fd_of f) = Some o -> Jw (upd_fd w (fd_of f) (Some (set_pos o p))) F.
Proof.
  intros (o1 & i & Ho & Hu & Ha & Hi & Hk & Hd) E. rewrite E in Ho. injection Ho as <-.
  exists (set_pos o p), i. cbn. rewrite upd_same by apply Z.eqb_refl. auto 8.
Qed.
Lemma get_fd_J w F : Jw w F -> exists o i, get_fd (fd_of f) w = (Ok (o, i), w) /\ w_fds w (fd_of f) = Some o /\ o_uid o = u /\ o_app o = true
  /\ w_inodes w u = Some i /\ n_kind i = KReg /\ n_data i = F.
Proof.
  intros (o & i & Ho & Hu & Ha & Hi & Hk & Hd). exists o, i. unfold get_fd. rewrite Ho, Hu, Hi. auto 8.
Qed.
Lemma keeps_lseek off wh : keeps (sys_lseek (fd_of f) off wh).
Proof.
  intros w r w' F H. unfold sys_lseek, bind. destruct (get_fd_J w F H) as (o & i & -> & Ho & _ & _ & _ & Hk & _). rewrite Hk.
  destruct (wh =? 0); [|destruct (wh =? 1); [|destruct (wh =? 2)]]; try (intros [= <- <-]; exact H);
    (destruct (_ <? 0); intros [= <- <-]; [exact H|now apply Jw_pos]).
Qed.
Lemma keeps_fstat : keeps (sys_fstat (fd_of f)).
Proof. intros w r w' F H. unfold sys_fstat, bind. destruct (get_fd_J w F H) as (o & i & -> & _). intros [= <- <-]. exact H. Qed.
Lemma keeps_sys_read n : keeps (sys_read (fd_of f) n).
Proof.
  intros w r w' F H. unfold sys_read, bind. destruct (get_fd_J w F H) as (o & i & -> & Ho & _ & _ & _ & Hk & _).
  destruct (negb (o_rd o)); [intros [= <- <-]; exact H|]. rewrite Hk. destruct (n <? 0); [intros [= <- <-]; exact H|].
  rewrite next_io_eq. destruct (hd IoFull (w_io w)); intros [= <- <-]; try exact H; now apply Jw_pos.
Qed.
Lemma keeps_inner_read n : keeps (inner_read f n).
Proof.
  intros w r w' F H. unfold inner_read. destruct (sys_read (fd_of f) n w) as [r1 w1] eqn:E. apply (keeps_sys_read _ _ _ _ _ H) in E.
  destruct r1 as [d|[]]; try (intros [= <- <-]; exact E).
  destruct (errno =? EAGAIN); [|destruct (errno =? EPIPE)]; intros [= <- <-]; exact E.
Qed.
Lemma keeps_closed : keeps (check_closed f).
Proof. unfold check_closed. destruct (f_closed f); [apply keeps_raise|apply keeps_ret]. Qed.
Lemma keeps_readable : keeps (check_readable f).
Proof. apply keeps_bind; [apply keeps_closed|]. intros _. destruct (f_readable f); [apply keeps_ret|apply keeps_raise]. Qed.
Lemma keeps_size : keeps (raw_size f).
Proof. apply keeps_bind; [apply keeps_closed|]. intros _. apply keeps_bind; [apply keeps_fstat|]. intros; apply keeps_ret. Qed.
Lemma keeps_tell : keeps (raw_tell f).
Proof. apply keeps_bind; [apply keeps_closed|]. intros _. apply keeps_lseek. Qed.
Lemma keeps_seek off wh : keeps (raw_seek f off wh).
Proof. apply keeps_bind; [apply keeps_closed|]. intros _. apply keeps_lseek. Qed.
Lemma keeps_read_n n : keeps (raw_read_n f n).
Proof. apply keeps_bind; [apply keeps_closed|]. intros _. apply keeps_bind; [apply keeps_readable|]. intros _. apply keeps_inner_read. Qed.
Lemma keeps_readall_loop : forall n acc, keeps (readall_loop n f acc).
Proof.
  induction n as [|n IH]; intros acc; cbn [readall_loop]; [apply keeps_raise|]. apply keeps_bind; [apply keeps_read_n|].
  intros [[|x d]|]; [apply keeps_ret|apply IH|apply keeps_ret].
Qed.
Lemma keeps_fuel : keeps (readall_fuel f).
Proof. intros w r w' F H [= <- <-]. exact H. Qed.
Lemma keeps_readall : keeps (raw_readall f).
Proof. apply keeps_bind; [apply keeps_fuel|]. intros n. apply keeps_readall_loop. Qed.
Lemma keeps_read n : keeps (raw_read f n).
Proof.
  apply keeps_bind; [apply keeps_closed|]. intros _. apply keeps_bind; [apply keeps_readable|]. intros _.
  destruct n as [n|]; [destruct (n <? 0); [apply keeps_readall|apply keeps_inner_read]|apply keeps_readall].
Qed.
Lemma keeps_flush : keeps (raw_flush f).
Proof. apply keeps_closed. Qed.

(** write() in append mode: a beginning of the bytes comes to the end of the file, and the count says how much; or nothing. *)
Lemma raw_write_J d w r w' F : Jw w F -> raw_write f d w = (r, w') ->
  (exists n, r = Ok (Some n) /\ 0 <= n <= len d /\ Jw w' (F ++ firstn (Z.to_nat n) d)) \/ ((forall n, r <> Ok (Some n)) /\ Jw w' F).
Proof.
  intros H. unfold raw_write, bind.
  unfold check_closed. destruct (f_closed f) eqn:Ec; [intros [= <- <-]; right; split; [discriminate|exact H]|].
  cbn [ret]. unfold check_writable, bind, check_closed. rewrite Ec. cbn [ret].
  destruct (f_writable f); [|intros [= <- <-]; right; split; [discriminate|exact H]]. cbn [ret].
  unfold inner_write. destruct (sys_write (fd_of f) d w) as [r1 w1] eqn:E.
  assert (X : (exists n, r1 = Ok n /\ 0 <= n <= len d /\ (d <> [] -> n <> 0) /\ Jw w1 (F ++ firstn (Z.to_nat n) d)) \/ (exists e, r1 = Err (EOS e)) /\ Jw w1 F).
  { unfold sys_write, bind in E. destruct (get_fd_J w F H) as (o & i & Eg & Ho & Hu & Ha & Hi & Hk & Hd). rewrite Eg in E.
    destruct (negb (o_wr o)); [injection E as <- <-; right; split; [eauto|exact H]|].
    rewrite next_io_eq in E. rewrite Hk, Ha, Hu in E.
    assert (Y : forall c, (c <= List.length d)%nat -> (d <> [] -> c <> O) ->
      (exists n, Ok (len (firstn c d)) = Ok n /\ 0 <= n <= len d /\ (d <> [] -> n <> 0)
        /\ Jw (upd_fd (upd_ino (set_io w (tl (w_io w))) u
             (mkIno KReg (write_at (n_data i) (Z.to_nat (Z.of_nat (List.length (n_data i)))) (firstn c d)) (n_dirty i || (negb (o_sync o) && negb (is_nil (firstn c d))))))
             (fd_of f) (Some (set_pos o (Z.of_nat (List.length (n_data i)) + len (firstn c d))))) (F ++ firstn (Z.to_nat n) d))).
    { intros c Hc Hn. exists (len (firstn c d)). split; [reflexivity|]. assert (L : len (firstn c d) = Z.of_nat c) by (unfold len; rewrite firstn_length; lia).
      rewrite L. split; [unfold len; lia|]. split; [intros Z; specialize (Hn Z); lia|].
      exists (set_pos o (Z.of_nat (List.length (n_data i)) + Z.of_nat c)). eexists. cbn. rewrite upd_same by apply Z.eqb_refl. split; [reflexivity|].
      split; [exact Hu|]. split; [exact Ha|]. split; [apply upd_same, P_Raw.uid_eqb_refl|]. split; [reflexivity|]. cbn [n_data].
      rewrite !Nat2Z.id, write_at_end, Hd. reflexivity. }
    destruct (hd IoFull (w_io w)) as [|m|e] eqn:Eh; [left|left|right; injection E as <- <-; split; [eauto|exact H]];
      injection E as <- <-; apply Y; unfold io_count; try lia; intros Nd; (assert (List.length d <> O) by (destruct d; [congruence|discriminate])); try destruct m; lia. }
  destruct X as [(n & -> & Hn & Hz & Jn)|((e & ->) & Jn)].
  - destruct (negb (is_nil d) && (n =? 0)) eqn:E1.
    { exfalso. apply andb_true_iff in E1. destruct E1 as [E1 E2]. apply Z.eqb_eq in E2. apply Hz; auto. intros ->. discriminate. }
    destruct ((n <? 0) || (Z.of_nat (List.length d) <? n)) eqn:E2.
    { exfalso. unfold len in Hn. apply orb_true_iff in E2. destruct E2 as [E2|E2]; apply Z.ltb_lt in E2; lia. }
    intros [= <- <-]. left. exists n. auto.
  - destruct (e =? EAGAIN); intros [= <- <-]; right; (split; [discriminate|exact Jn]).
Qed.

(** Steps that leave both the file and the write buffer alone. *)
Definition passive {X} (m : bstate -> X * bstate) : Prop := forall b x b' F, J b F -> m b = (x, b') -> J b' F /\ b_wbuf b' = b_wbuf b.
Lemma passive_raw {A} (m : rawio -> M A) : keeps (m f) -> passive (on_raw m).
Proof.
  intros K b x b' F (R & S & H). unfold on_raw. rewrite R. destruct (m f (b_w b)) as [r w] eqn:E. intros [= <- <-].
  split; [|reflexivity]. split; [exact R|]. split; [exact S|]. exact (K _ _ _ _ H E).
Qed.
Lemma passive_ret {A} (a : A) : passive (ret a : B A).
Proof. intros b x b' F H [= <- <-]. auto. Qed.
Lemma passive_raise {A} e : passive (raise e : B A).
Proof. intros b x b' F H [= <- <-]. auto. Qed.
Lemma passive_bind {A C} (m : B A) (k : A -> B C) : passive m -> (forall a, passive (k a)) -> passive (bind m k).
Proof.
  intros Hm Hk b x b' F H. unfold bind. destruct (m b) as [[a|e] b1] eqn:E; intros E2; destruct (Hm _ _ _ _ H E) as [H1 W1].
  - destruct (Hk _ _ _ _ _ H1 E2) as [H2 W2]. split; [exact H2|congruence].
  - injection E2 as <- <-. auto.
Qed.
Lemma passive_get {X} (g : bstate -> X) : passive (fun b => (Ok (g b), b)).
Proof. intros b x b' F H [= <- <-]. auto. Qed.
Lemma passive_rbuf {X} (g : bstate -> X) l p : passive (fun b => (g b, set_rbuf b (l b) (p b))).
Proof. intros b x b' F (R & S & H) [= <- <-]. split; [|reflexivity]. repeat split; auto. Qed.
Lemma passive_closed : passive b_check_closed.
Proof. intros b x b' F H. unfold b_check_closed. destruct (f_closed (b_raw b)); intros [= <- <-]; auto. Qed.
Lemma passive_reset : passive reset_read_buf.
Proof. apply (passive_rbuf (fun _ => Ok tt) (fun _ => []) (fun _ => O)). Qed.
Lemma passive_undo : passive undo_readahead.
Proof.
  intros b x b' F H. unfold undo_readahead.
  apply (passive_bind (on_raw (fun f => raw_seek f (Z.of_nat (b_rpos b) - Z.of_nat (List.length (b_rbuf b))) 1)) (fun _ => ret tt)); auto.
  - apply passive_raw, keeps_seek.
  - intros _. apply passive_ret.
Qed.
Lemma passive_mseek p wh : passive (mixin_seek p wh).
Proof. apply passive_bind; [apply passive_raw, keeps_seek|]. intros n. destruct (n <? 0); [apply passive_raise|apply passive_ret]. Qed.
Lemma passive_mtell : passive mixin_tell.
Proof. apply passive_bind; [apply passive_raw, keeps_tell|]. intros n. destruct (n <? 0); [apply passive_raise|apply passive_ret]. Qed.
Lemma passive_read_fuel : passive read_fuel.
Proof. apply passive_bind; [apply passive_raw, keeps_fuel|]. intros n. apply passive_ret. Qed.

(** * Programs *)

(** Where a thread is: outside; holding _write_lock, [W] being in the write buffer, the first [n] bytes of it in the file already,
    [x] the bytes that the call has taken; about to return, having taken [x]. *)
Inductive place : Type := Outside | Inside (W : list Z) (n : nat) (x : list Z) | Leaving (x : list Z).

Fixpoint okp {A} (Q : A -> place -> Prop) (p : prog A) (st : place) : Prop :=
  match p with
  | PRet a => Q a st
  | PAct m k =>
      match st with
      | Outside => passive m /\ forall b y b', m b = (y, b') -> okp Q (k y) Outside
      | Inside W n x => forall b y b' F, J b F -> b_wbuf b = W -> m b = (y, b') ->
          exists c n' x', J b' (F ++ c)
            /\ (forall M a, M ++ skipn n W = a ++ x -> (M ++ c) ++ skipn n' (b_wbuf b') = a ++ x')
            /\ okp Q (k y) (Inside (b_wbuf b') n' x')
      | Leaving _ => False
      end
  | PAcq l q =>
      match st with
      | Outside => match l with LWrite => forall W, okp Q q (Inside W O []) | _ => okp Q q Outside end
      | _ => False
      end
  | PRel l q =>
      match st, l with
      | Outside, LWrite => False
      | Outside, _ => okp Q q Outside
      | Inside W n x, LWrite => n = O /\ okp Q q (match x with [] => Outside | _ => Leaving x end)
      | _, _ => False
      end
  end.

Lemma okp_seq {A C} (p : prog A) (g : A -> prog C) Q : forall st, okp (fun a st' => okp Q (g a) st') p st -> okp Q (pseq p g) st.
Proof.
  induction p as [a|X m k IH|l p IH|l p IH]; intros st H; cbn [pseq okp] in *; auto.
  - destruct st as [|W n x|x]; auto.
    + destruct H as [H1 H2]. split; eauto.
    + intros b y b' F HJ HW E. destruct (H b y b' F HJ HW E) as (c & n' & x' & H1 & H2 & H3). eauto 8.
  - destruct st; auto. destruct l; auto.
  - destruct st as [|W n x|x]; auto; destruct l; auto. destruct H as [H1 H2]; auto.
Qed.
Lemma okp_post {A} (p : prog A) (Q Q' : A -> place -> Prop) : (forall a st, Q a st -> Q' a st) -> forall st, okp Q p st -> okp Q' p st.
Proof.
  intros HQ. induction p as [a|X m k IH|l p IH|l p IH]; intros st H; cbn [okp] in *; auto.
  - destruct st as [|W n x|x]; auto.
    + destruct H as [H1 H2]. split; eauto.
    + intros b y b' F HJ HW E. destruct (H b y b' F HJ HW E) as (c & n' & x' & H1 & H2 & H3). eauto 8.
  - destruct st; auto. destruct l; auto.
  - destruct st as [|W n x|x]; auto; destruct l; auto. destruct H as [H1 H2]; auto.
Qed.

(** Programs that take nothing of the caller's and come back outside. *)
Definition smooth {A} (p : prog A) : Prop := forall Q : A -> place -> Prop, (forall a, Q a Outside) -> okp Q p Outside.
Lemma smooth_ret {A} (a : A) : smooth (PRet a).
Proof. intros Q H. apply H. Qed.
Lemma smooth_act {X} (m : B X) : passive m -> smooth (act m).
Proof. intros P Q H. split; [exact P|]. intros b y b' _. apply H. Qed.
Lemma smooth_attr {X} (g : bstate -> X) : smooth (attr g).
Proof. apply smooth_act, passive_get. Qed.
Lemma smooth_seq {A C} (p : prog A) (g : A -> prog C) : smooth p -> (forall a, smooth (g a)) -> smooth (pseq p g).
Proof. intros Hp Hg Q H. apply okp_seq, Hp. intros a. apply Hg, H. Qed.
Lemma smooth_bind {A C} (p : prog (res A)) (g : A -> prog (res C)) : smooth p -> (forall a, smooth (g a)) -> smooth (pbind p g).
Proof. intros Hp Hg. apply smooth_seq; [exact Hp|]. intros [a|e]; [apply Hg|apply smooth_ret]. Qed.
Lemma smooth_read {A} (p : prog A) : smooth p -> smooth (with_lk LRead p).
Proof. intros Hp Q H. cbn [with_lk okp]. apply okp_seq, Hp. intros a. cbn [okp]. apply H. Qed.
Lemma smooth_if {A} (c : bool) (p q : prog A) : smooth p -> smooth q -> smooth (if c then p else q).
Proof. destruct c; auto. Qed.

(** ** Flushing, with the lock *)
Lemma inside_passive {X} (m : B X) W n x (Q : res X -> place -> Prop) : passive m -> (forall y, Q y (Inside W n x)) -> okp Q (act m) (Inside W n x).
Proof.
  intros P H. cbn [act okp]. intros b y b' F HJ HW E. destruct (P _ _ _ _ HJ E) as [H1 H2]. exists [], n, x.
  rewrite app_nil_r, H2, HW. split; [exact H1|]. split; [intros M a Y; now rewrite app_nil_r|]. apply H.
Qed.
Lemma inside_attr {X} (g : bstate -> X) W n x (Q : res X -> place -> Prop) : (forall b, b_wbuf b = W -> b_size b = size -> Q (Ok (g b)) (Inside W n x)) -> okp Q (attr g) (Inside W n x).
Proof.
  intros H. cbn [attr act okp]. intros b y b' F HJ HW [= <- <-]. exists [], n, x.
  rewrite app_nil_r, HW. split; [exact HJ|]. split; [intros M a Y; now rewrite app_nil_r|]. apply H; [exact HW|]. apply HJ.
Qed.
Lemma flush_loop_ok x : forall fuel W (Q : res unit -> place -> Prop),
  (forall r j, (r = Ok tt -> skipn j W = []) -> (forall e, r = Err e -> forall n, e = EBlocking n -> n = 0) -> Q r (Inside (skipn j W) O x)) ->
  okp Q (p_flush_loop fuel) (Inside W O x).
Proof.
  induction fuel as [|fuel IH]; intros W Q H; cbn [p_flush_loop].
  { apply (H (Err EFuel) O); [discriminate|]. intros e [= <-] n X. discriminate X. }
  apply okp_seq, inside_attr. intros b0 HW0 _. rewrite HW0. destruct W as [|z W'] eqn:EW.
  { apply (H (Ok tt) O); auto. discriminate. }
  rewrite <- EW in *. clear b0 HW0.
  apply okp_seq. cbn [act okp]. intros b y b' F HJ HW E. destruct HJ as (R & S & HJ). unfold on_raw in E. rewrite R in E.
  destruct (raw_write f W (b_w b)) as [r w] eqn:Er. injection E as <- <-.
  destruct (raw_write_J W _ _ _ F HJ Er) as [(n & -> & Hn & Jn)|[Hr Jn]].
  - exists (firstn (Z.to_nat n) W), (Z.to_nat n), x. cbn [set_world b_wbuf b_w]. split; [repeat split; auto|]. rewrite HW. split.
    { intros M a Y. rewrite <- app_assoc, firstn_skipn. exact Y. }
    destruct ((Z.of_nat (List.length W) <? n) || (n <? 0)) eqn:Eb.
    { exfalso. unfold len in Hn. apply orb_true_iff in Eb. destruct Eb as [Eb|Eb]; apply Z.ltb_lt in Eb; lia. }
    apply okp_seq. cbn [act okp]. intros b1 y1 b1' F1 (R1 & S1 & J1) HW1 [= <- <-].
    exists [], O, x. rewrite app_nil_r. cbn [set_wbuf b_wbuf]. split; [repeat split; auto|]. rewrite HW1. split.
    { intros M a Y. now rewrite app_nil_r. }
    apply IH. intros r j H1 H2. rewrite skipn_skipn in *. apply H; auto.
  - exists [], O, x. rewrite !app_nil_r. cbn [set_world b_wbuf b_w]. split; [repeat split; auto|]. rewrite HW. split.
    { intros M a Y. now rewrite app_nil_r. }
    destruct r as [[n|]|e].
    + exfalso. now apply (Hr n).
    + apply (H (Err (EBlocking 0)) O); [discriminate|]. intros e [= <-] n [= <-]. reflexivity.
    + apply (H (Err e) O); [discriminate|]. intros e' [= <-] n ->.
      exfalso. clear - Er. unfold raw_write, bind, check_closed, check_writable, bind, check_closed in Er.
      destruct (f_closed f); [discriminate Er|]. cbn [ret] in Er. destruct (f_writable f); [|discriminate Er]. cbn [ret] in Er.
      unfold inner_write in Er. destruct (sys_write (fd_of f) W (b_w b)) as [r1 w1] eqn:E.
      destruct r1 as [m|e].
      * destruct (_ && _); [discriminate Er|]. destruct (_ || _); discriminate Er.
      * assert (X : exists m, e = EOS m).
        { unfold sys_write, bind in E. unfold get_fd in E.
          destruct (w_fds (b_w b) (fd_of f)) as [o|]; [|injection E as <- _; eauto].
          destruct (w_inodes (b_w b) (o_uid o)) as [i|]; [|injection E as <- _; eauto].
          destruct (negb (o_wr o)); [injection E as <- _; eauto|]. rewrite next_io_eq in E.
          destruct (hd IoFull (w_io (b_w b))); [| |injection E as <- _; eauto]; destruct (n_kind i); discriminate E. }
        destruct X as (m & ->). destruct (m =? EAGAIN); discriminate Er.
Qed.
Lemma flush_inside W x (Q : res unit -> place -> Prop) :
  (forall r j, (r = Ok tt -> skipn j W = []) -> (forall e, r = Err e -> forall n, e = EBlocking n -> n = 0) -> Q r (Inside (skipn j W) O x)) ->
  okp Q p_flush_unlocked (Inside W O x).
Proof.
  intros H. unfold p_flush_unlocked. apply okp_seq. cbn [act okp]. intros b y b' F HJ HW E.
  destruct (passive_closed _ _ _ _ HJ E) as [H1 H2]. exists [], O, x. rewrite app_nil_r, H2, HW. split; [exact H1|].
  split; [intros M a Y; now rewrite app_nil_r|]. unfold b_check_closed in E. destruct (f_closed (b_raw b)); injection E as <- <-.
  { apply (H (Err EValue) O); [discriminate|]. intros e [= <-] n X. discriminate X. }
  apply okp_seq, inside_attr. intros b1 HW1 _. cbn beta iota. now apply flush_loop_ok.
Qed.
Lemma smooth_flush k : smooth (p_flush k).
Proof.
  destruct k; cbn [p_flush].
  - apply smooth_bind; [apply smooth_act, passive_closed|]. intros _. apply smooth_act, passive_raw, keeps_flush.
  - intros Q H. cbn [with_lk okp]. intros W. apply okp_seq, flush_inside. intros r j _ _. cbn [okp]. auto.
  - intros Q H. cbn [with_lk okp]. intros W. apply okp_seq, flush_inside. intros r j _ _. cbn [okp]. auto.
Qed.

(** ** Writing *)
Definition taken_is (d : list Z) (r : res Z) (x : list Z) : Prop :=
  takes (TOp (BoWrite d)) (match r with Ok n => OInt n | Err e => OErr e end) x.
Definition at_end (d : list Z) (r : res Z) (st : place) : Prop :=
  match st with Outside => taken_is d r [] | Leaving x => taken_is d r x | Inside _ _ _ => False end.

Lemma leave d (r : res Z) W x (Q : res Z -> place -> Prop) : taken_is d r x -> (forall r st, at_end d r st -> Q r st) -> okp Q (PRel LWrite (PRet r)) (Inside W O x).
Proof. intros T H. cbn [okp]. split; [reflexivity|]. apply H. destruct x; exact T. Qed.

Lemma write_ok d (Q : res Z -> place -> Prop) : (forall r st, at_end d r st -> Q r st) -> okp Q (p_writer_write d) Outside.
Proof.
  intros HQ. unfold p_writer_write. cbn [with_lk okp]. intros W0. apply okp_seq.
  assert (Out : forall e W, (forall n, e = EBlocking n -> n = 0) -> okp Q (PRel LWrite (PRet (Err e))) (Inside W O [])).
  { intros e W He. apply (leave d); auto. unfold taken_is. destruct e; try (apply TK_none; discriminate).
    rewrite (He written eq_refl). replace (@nil Z) with (firstn (Z.to_nat 0) d) by reflexivity. apply TK_block. pose proof (len_nonneg d). lia. }
  apply okp_seq. cbn [act okp]. intros b y b' F HJ HW E.
  destruct (passive_closed _ _ _ _ HJ E) as [H1 H2]. exists [], O, []. rewrite app_nil_r, H2, HW. split; [exact H1|].
  split; [intros M a Y; now rewrite app_nil_r|]. unfold b_check_closed in E. destruct (f_closed (b_raw b)); injection E as <- <-.
  { apply (Out EValue W0). intros n X; discriminate X. }
  clear F HJ HW H1 H2 b. cbn beta iota.
  apply okp_seq, inside_attr. intros b HW Hs. rewrite HW, Hs. clear b HW Hs. cbn beta iota.
  (* what follows once there is room *)
  assert (Body : forall W, Z.of_nat (List.length W) <= size ->
    okp (fun a st => okp Q (PRel LWrite (PRet a)) st)
     (act (fun b => (Ok tt, set_wbuf b (b_wbuf b ++ d))) ;~
      full <~ attr (fun b => b_size b <? Z.of_nat (List.length (b_wbuf b))) ;;
      let written := Z.of_nat (List.length d) in
      if full then
       pseq p_flush_unlocked (fun r =>
         match r with
         | Err (EBlocking x) =>
             act (fun b =>
                    if b_size b <? Z.of_nat (List.length (b_wbuf b)) then
                      let overage := Z.of_nat (List.length (b_wbuf b)) - b_size b in
                      (Err (EBlocking (written - overage)), set_wbuf b (firstn (Z.to_nat (b_size b)) (b_wbuf b)))
                    else (Ok written, b))
         | Err e => praise e
         | Ok _ => pret written
         end)
      else pret written) (Inside W O [])).
  { intros W HW. apply okp_seq. cbn [act okp]. intros b y b' F (R & S & HJ) Hb [= <- <-].
    exists [], O, d. rewrite app_nil_r. cbn [set_wbuf b_wbuf]. rewrite Hb. split; [repeat split; auto|]. split.
    { intros M a Y. cbn [skipn] in *. rewrite app_nil_r in *. rewrite app_assoc, Y. reflexivity. }
    cbn beta iota. apply okp_seq, inside_attr. intros b1 Hb1 Hs1. rewrite Hb1, Hs1. clear b b1 F R S HJ Hb Hb1 Hs1. cbn beta iota zeta.
    destruct (size <? Z.of_nat (List.length (W ++ d))) eqn:Ef.
    2:{ apply (leave d); auto. apply TK_write. }
    apply okp_seq, flush_inside. intros r j Hok Herr. destruct r as [[]|e].
    { rewrite (Hok eq_refl). apply (leave d); auto. apply TK_write. }
    assert (Dec : (exists n, e = EBlocking n) \/ (forall n, e <> EBlocking n)) by (destruct e; (left; eexists; reflexivity) || (right; discriminate)).
    destruct Dec as [(n & ->)|Ne].
    2:{ assert (G : okp Q (PRel LWrite (PRet (Err e))) (Inside (skipn j (W ++ d)) O d)) by (apply (leave d); auto; now apply TK_all).
        destruct e; try exact G. exfalso. eapply Ne; reflexivity. }
    cbn [act okp]. intros b y b' F (R & S & HJ) Hb E. rewrite Hb, S in E.
    set (V := skipn j (W ++ d)) in *.
    assert (LV : Z.of_nat (List.length V) <= size + len d).
    { unfold V, len. rewrite skipn_length, app_length. lia. }
    destruct (size <? Z.of_nat (List.length V)) eqn:Eo; injection E as <- <-.
    - apply Z.ltb_lt in Eo. set (n1 := Z.of_nat (List.length d) - (Z.of_nat (List.length V) - size)) in *.
      exists [], O, (firstn (Z.to_nat n1) d). rewrite app_nil_r. cbn [set_wbuf b_wbuf]. split; [repeat split; auto|]. split.
      + intros M a Y. cbn [skipn] in *. rewrite app_nil_r in *. unfold len in LV.
        assert (Z1 : firstn (List.length (M ++ V) - Z.to_nat (Z.of_nat (List.length V) - size)) (M ++ V) = M ++ firstn (Z.to_nat size) V).
        { rewrite firstn_app, app_length. rewrite (firstn_all2 M) by lia. f_equal. f_equal. lia. }
        rewrite <- Z1, Y, firstn_app, app_length. rewrite (firstn_all2 a) by lia. f_equal. f_equal. unfold n1. lia.
      + apply (leave d); auto. apply TK_block. unfold n1, len in *. lia.
    - exists [], O, d. rewrite app_nil_r. cbn [set_wbuf b_wbuf]. rewrite Hb. split; [repeat split; auto|]. split.
      + intros M a Y. now rewrite app_nil_r.
      + apply (leave d); auto. apply TK_write. }
  destruct (size <? Z.of_nat (List.length W0)) eqn:Ew.
  - apply okp_seq, flush_inside. intros r j Hok Herr. destruct r as [[]|e].
    + rewrite (Hok eq_refl). apply Body. cbn. lia.
    + apply (Out e W0). exact (Herr e eq_refl).
  - apply okp_seq. cbn [pret okp]. apply Body. apply Z.ltb_ge in Ew. exact Ew.
Qed.

(** ** All calls *)
Lemma smooth_undo {A} (p : prog (res A)) : smooth p ->
  smooth (some <~ attr (fun b => negb (is_nil (b_rbuf b))) ;; (if some then with_lk LRead (act undo_readahead) else pret tt) ;~ p).
Proof.
  intros H. apply smooth_bind; [apply smooth_attr|]. intros some. apply smooth_bind; [|intros _; exact H].
  apply smooth_if; [apply smooth_read, smooth_act, passive_undo|apply smooth_ret].
Qed.
Lemma smooth_seek k pos wh : smooth (p_seek k pos wh).
Proof.
  unfold p_seek. destruct (negb (valid_whence wh)); [apply smooth_ret|]. destruct k.
  - apply smooth_bind; [apply smooth_act, passive_closed|]. intros _. apply smooth_read. apply smooth_bind; [apply smooth_attr|]. intros n.
    apply smooth_bind; [apply smooth_act, passive_mseek|]. intros m. apply smooth_bind; [apply smooth_act, passive_reset|]. intros _. apply smooth_ret.
  - intros Q H. cbn [with_lk okp]. intros W. apply okp_seq. apply okp_seq, flush_inside. intros r j _ _. destruct r as [[]|e].
    + apply inside_passive; [apply passive_mseek|]. intros y. cbn [okp]. auto.
    + cbn [okp]. auto.
  - apply smooth_bind; [apply smooth_flush|]. intros _. apply smooth_undo. apply smooth_bind; [apply smooth_act, passive_raw, keeps_seek|]. intros n.
    apply smooth_bind; [apply smooth_read, smooth_act, passive_reset|]. intros _. apply smooth_if; apply smooth_ret.
Qed.
Lemma smooth_tell k : smooth (p_tell k).
Proof.
  assert (R : smooth p_reader_tell).
  { apply smooth_bind; [apply smooth_act, passive_mtell|]. intros n. apply smooth_bind; [apply smooth_attr|]. intros l.
    apply smooth_bind; [apply smooth_attr|]. intros p. apply smooth_ret. }
  assert (W : smooth p_writer_tell).
  { apply smooth_bind; [apply smooth_act, passive_mtell|]. intros n. apply smooth_bind; [apply smooth_attr|]. intros l. apply smooth_ret. }
  destruct k; cbn [p_tell]; auto. apply smooth_bind; [apply smooth_attr|]. intros some. destruct some; auto.
Qed.
Lemma smooth_fill : forall fuel wanted n out, smooth (p_fill_loop fuel wanted n out).
Proof.
  induction fuel as [|fuel IH]; intros wanted n out; cbn [p_fill_loop]; [apply smooth_ret|].
  apply smooth_if; [|apply smooth_ret]. apply smooth_bind; [apply smooth_act, passive_raw, keeps_read|].
  intros [[|x c]|]; [apply smooth_ret|apply IH|apply smooth_ret].
Qed.
Lemma smooth_read_unlocked n : smooth (p_read_unlocked n).
Proof.
  unfold p_read_unlocked. apply smooth_bind; [apply smooth_attr|]. intros rest. apply smooth_if.
  - apply smooth_bind; [apply smooth_act, passive_reset|]. intros _. apply smooth_bind; [apply smooth_act, passive_raw, keeps_readall|].
    intros [c|]; apply smooth_ret.
  - apply smooth_if.
    + apply smooth_act. apply (passive_rbuf (fun _ => Ok _) b_rbuf (fun b => b_rpos b + _)%nat).
    + apply smooth_bind; [apply smooth_attr|]. intros wanted. apply smooth_bind; [apply smooth_act, passive_read_fuel|]. intros fuel.
      apply smooth_bind; [apply smooth_fill|]. intros [out nodata]. apply smooth_bind; [|intros _; apply smooth_ret].
      apply smooth_act. apply (passive_rbuf (fun _ => Ok tt) (fun _ => _) (fun _ => O)).
Qed.
Lemma smooth_reader_read n : smooth (p_reader_read n).
Proof. unfold p_reader_read. apply smooth_if; [apply smooth_ret|apply smooth_read, smooth_read_unlocked]. Qed.
Lemma smooth_bread k n : smooth (p_read k n).
Proof.
  destruct k; cbn [p_read]; [apply smooth_reader_read|apply smooth_ret|].
  apply smooth_bind; [apply smooth_flush|]. intros _. apply smooth_reader_read.
Qed.
Lemma smooth_peek_unlocked n : smooth (p_peek_unlocked n).
Proof.
  unfold p_peek_unlocked. apply smooth_bind; [apply smooth_attr|]. intros have. apply smooth_bind; [apply smooth_attr|]. intros sz.
  apply smooth_bind; [|intros _; apply smooth_attr]. apply smooth_if; [|apply smooth_ret].
  apply smooth_bind; [apply smooth_act, passive_raw, keeps_read|]. intros [[|x c]|]; try apply smooth_ret.
  apply smooth_act. apply (passive_rbuf (fun _ => Ok tt) (fun b => unread b ++ _) (fun _ => O)).
Qed.
Lemma smooth_reader_peek n : smooth (p_reader_peek n).
Proof. apply smooth_bind; [apply smooth_act, passive_closed|]. intros _. apply smooth_read, smooth_peek_unlocked. Qed.
Lemma smooth_peek k n : smooth (p_peek k n).
Proof.
  destruct k; cbn [p_peek]; [apply smooth_reader_peek|apply smooth_ret|].
  apply smooth_bind; [apply smooth_flush|]. intros _. apply smooth_reader_peek.
Qed.
Lemma smooth_reader_read1 n : smooth (p_reader_read1 n).
Proof.
  apply smooth_bind; [apply smooth_act, passive_closed|]. intros _. apply smooth_bind; [apply smooth_attr|]. intros sz. cbn zeta.
  apply smooth_if; [apply smooth_ret|]. apply smooth_read. apply smooth_bind; [apply smooth_peek_unlocked|]. intros _.
  apply smooth_bind; [apply smooth_attr|]. intros have. apply smooth_read_unlocked.
Qed.
Lemma smooth_read1 k n : smooth (p_read1 k n).
Proof.
  destruct k; cbn [p_read1]; [apply smooth_reader_read1|apply smooth_ret|].
  apply smooth_bind; [apply smooth_flush|]. intros _. apply smooth_reader_read1.
Qed.
Lemma smooth_readline_loop k sz : forall fuel got, smooth (p_readline_loop fuel k sz got).
Proof.
  induction fuel as [|fuel IH]; intros got; cbn [p_readline_loop]; [apply smooth_ret|].
  apply smooth_if; [|apply smooth_ret]. apply smooth_bind; [apply smooth_peek|]. intros ahead. apply smooth_bind; [apply smooth_bread|].
  intros [[|x d]|]; try apply smooth_ret. apply smooth_if; [apply smooth_ret|apply IH].
Qed.
Lemma smooth_readline k n : smooth (p_readline k n).
Proof.
  assert (G : smooth (fuel <~ act read_fuel ;; more <~ attr (fun b => List.length (unread b) + List.length (b_wbuf b) + 1)%nat ;;
      p_readline_loop (fuel + more)%nat k n [])).
  { apply smooth_bind; [apply smooth_act, passive_read_fuel|]. intros fuel. apply smooth_bind; [apply smooth_attr|]. intros more. apply smooth_readline_loop. }
  destruct k; cbn [p_readline]; auto. destruct (n =? 0); apply smooth_ret.
Qed.
Lemma smooth_size k : smooth (p_size k).
Proof. apply smooth_bind; [apply smooth_flush|]. intros _. apply smooth_act, passive_raw, keeps_size. Qed.

(** The end of a call. *)
Definition fin (c : tcall) (r : rout) (st : place) : Prop :=
  match st with Outside => takes c r [] | Leaving x => takes c r x | Inside _ _ _ => False end.
Lemma smooth_fin {A} c (g : A -> rout) (p : prog (res A)) : (forall d, c <> TOp (BoWrite d)) -> smooth p -> okp (fin c) (plift g p) Outside.
Proof. intros Hc Hp. apply okp_seq, Hp. intros a. cbn. now apply TK_other. Qed.
Lemma lseek_errors fd off wh w e w' : sys_lseek fd off wh w = (Err e, w') -> exists n, e = EOS n.
Proof.
  unfold sys_lseek, bind, get_fd. destruct (w_fds w fd) as [o|]; [|intros [= <- _]; eauto].
  destruct (w_inodes w (o_uid o)) as [i|]; [|intros [= <- _]; eauto].
  destruct (n_kind i); try (intros [= <- _]; eauto; fail);
    (destruct (wh =? 0); [|destruct (wh =? 1); [|destruct (wh =? 2)]]);
    try (intros [= <- _]; eauto; fail); (destruct (_ <? 0); intros [= <- _]; eauto).
Qed.
Lemma undo_errors n b b' : undo_readahead b = (Err (EBlocking n), b') -> False.
Proof.
  unfold undo_readahead, bind, on_raw, raw_seek, bind, check_closed, inner_seek.
  destruct (f_closed (b_raw b)); [discriminate|]. cbn [ret]. destruct (sys_lseek _ _ _ (b_w b)) as [[x|e] w] eqn:E; [discriminate|].
  destruct (lseek_errors _ _ _ _ _ _ E) as (m & ->). discriminate.
Qed.
Lemma prog_ok k c : log_call c -> okp (fin c) (prog_of k c) Outside.
Proof.
  intros Hl. destruct c as [op|n|]; [destruct op|..]; cbn [prog_of]; try contradiction; try (apply smooth_fin; [discriminate|]).
  - apply smooth_bread. - apply smooth_read1. - apply smooth_peek.
  - apply okp_seq.
    assert (HQ : forall (r : res Z) st, at_end d r st -> okp (fin (TOp (BoWrite d))) (PRet (match r with Ok a => OInt a | Err e => OErr e end)) st).
    { intros r [|W n x|x]; cbn; auto. }
    destruct k; cbn [p_write].
    + cbn. apply TK_none. discriminate.
    + apply write_ok. exact HQ.
    + apply okp_seq. cbn [attr act okp]. split; [apply passive_get|]. intros b y b' [= <- _]. cbn beta iota. apply okp_seq.
      assert (Er : forall e, (forall n, e <> EBlocking n) -> okp (fin (TOp (BoWrite d))) (PRet (OErr e)) Outside) by (intros e He; cbn; now apply TK_none).
      destruct (negb (is_nil (b_rbuf b))); [|apply write_ok; exact HQ].
      cbn [with_lk okp]. apply okp_seq. apply okp_seq. cbn [act okp]. split; [apply passive_undo|]. intros b1 y1 b1' E1.
      destruct y1 as [[]|e].
      * cbn beta iota. cbn [act okp]. split; [apply passive_reset|]. intros b2 y2 b2' [= <- _]. cbn [okp]. apply write_ok. exact HQ.
      * cbn [okp]. apply Er. intros n ->. now apply undo_errors in E1.
  - apply smooth_seek. - apply smooth_tell. - apply smooth_size. - apply smooth_flush. - apply smooth_readline.
Qed.

(** * All threads *)

Variable k : bkind.
Variable base : list Z.

(** The thread that holds _write_lock, with what is known of it. *)
Definition owner : Type := option (nat * nat * list Z).
Definition place_of (own : owner) (t : nat) (b : bstate) : place :=
  match own with Some (h, n, x) => if Nat.eqb t h then Inside (b_wbuf b) n x else Outside | None => Outside end.
Definition in_file (own : owner) : nat := match own with Some (_, n, _) => n | None => O end.
Definition so_far (own : owner) : list Z := match own with Some (_, _, x) => x | None => [] end.
Definition thr_ok (own : owner) (b : bstate) (t : nat) (y : thread tcall rout) : Prop :=
  Forall log_call (t_todo y)
  /\ match t_now y with None => place_of own t b = Outside | Some (c, p) => okp (fin c) p (place_of own t b) end.

Record linv (q : pool tcall rout) (theirs : list Z) (own : owner) (a M m : list Z) : Prop := mkLinv {
  li_lock : l_write (q_locks q) = match own with Some _ => true | None => false end;
  li_log : all_take (q_log q) a;
  li_file : J (q_st q) (base ++ m);
  li_merge : merges M theirs m;
  li_sum : M ++ skipn (in_file own) (b_wbuf (q_st q)) = a ++ so_far own;
  li_thr : forall t y, nth_error (q_thr q) t = Some y -> thr_ok own (q_st q) t y;
  li_own : match own with Some (h, _, _) => nth_error (q_thr q) h <> None | None => True end }.

Lemma place_other own t b b' : b_wbuf b' = b_wbuf b -> place_of own t b' = place_of own t b.
Proof. intros E. unfold place_of. now rewrite E. Qed.
Lemma own_settle (own : owner) (q : pool tcall rout) t c p todo ls b : match own with Some (h, _, _) => nth_error (q_thr q) h <> None | None => True end ->
  match own with Some (h, _, _) => nth_error (q_thr (settle t c p todo ls b q)) h <> None | None => True end.
Proof.
  destruct own as [[[h n] x]|]; auto. intros H E. apply H. apply nth_error_None. apply nth_error_None in E. now rewrite settle_len in E.
Qed.

(** A thread goes on. *)
Lemma settle_place q t y0 c p todo ls b theirs own a M m :
  nth_error (q_thr q) t = Some y0 -> Forall log_call todo ->
  l_write ls = match own with Some _ => true | None => false end ->
  all_take (q_log q) a -> J b (base ++ m) -> merges M theirs m -> M ++ skipn (in_file own) (b_wbuf b) = a ++ so_far own ->
  (forall t' y, t' <> t -> nth_error (q_thr q) t' = Some y -> thr_ok own b t' y) ->
  match own with Some (h, _, _) => nth_error (q_thr q) h <> None | None => True end ->
  okp (fin c) p (place_of own t b) ->
  linv (settle t c p todo ls b q) theirs own a M m.
Proof.
  intros Ht Hl El Ea HJ Hm Hs Ho Hw Hp.
  assert (Hthr : forall now, (match now with None => place_of own t b = Outside | Some (c, p) => okp (fin c) p (place_of own t b) end) ->
     forall t' y, nth_error (nth_update (q_thr q) t (mkThread now todo)) t' = Some y -> thr_ok own b t' y).
  { intros now Hn t' y E. destruct (Nat.eq_dec t' t) as [->|Ne].
    - rewrite (nth_update_at _ _ _ _ Ht) in E. injection E as <-. split; auto.
    - rewrite nth_update_off in E by auto. now apply Ho. }
  pose proof (own_settle own q t c p todo ls b Hw) as Hw'.
  destruct p as [r|X act0 cont|l p|l p]; cbn [settle] in *; try (constructor; cbn [q_locks q_log q_st q_thr]; auto; apply Hthr; exact Hp).
  assert (Hf : place_of own t b = Outside /\ takes c r []).
  { cbn [okp] in Hp. unfold place_of in *. destruct own as [[[h n] x]|]; [destruct (Nat.eqb t h)|]; cbn in Hp; auto. contradiction. }
  constructor; cbn [q_locks q_log q_st q_thr]; auto.
  - rewrite <- (app_nil_r a). constructor; [exact Ea|apply Hf].
  - apply Hthr. apply Hf.
Qed.

Lemma step_inv t q q' theirs own a M m : linv q theirs own a M m -> pstep (prog_of k) t q = Some q' ->
  exists own' a' M' m', linv q' theirs own' a' M' m'.
Proof.
  intros [I1 I2 I3 I4 I5 I6 I7]. unfold pstep. destruct (nth_error (q_thr q) t) as [[now todo]|] eqn:Et; [|discriminate].
  destruct (I6 t _ Et) as [Hl Hp]. cbn [t_now t_todo] in Hl, Hp.
  destruct now as [[c p]|].
  2:{ destruct todo as [|c todo]; [discriminate|]. intros [= <-]. inversion Hl; subst. exists own, a, M, m.
      eapply settle_place; eauto. rewrite Hp. now apply prog_ok. }
  destruct p as [r|X m0 cont|l p|l p]; [discriminate|..].
  - destruct (m0 (q_st q)) as [y b'] eqn:Em. intros [= <-].
    destruct (place_of own t (q_st q)) as [|W n x|x] eqn:Ep; cbn [okp] in Hp; [| |contradiction].
    + destruct Hp as [Hp Hk]. destruct (Hp _ _ _ _ I3 Em) as [HJ HW]. exists own, a, M, m.
      eapply settle_place; eauto.
      * now rewrite HW.
      * intros t' y' Ne E. destruct (I6 t' y' E) as [H1 H2]. split; auto. now rewrite (place_other own t' _ b' HW).
      * rewrite (place_other own t _ b' HW), Ep. now apply (Hk _ _ _ Em).
    + unfold place_of in Ep. destruct own as [[[h n1] x1]|]; [|discriminate]. destruct (Nat.eqb t h) eqn:Eh; [|discriminate].
      injection Ep as <- -> ->. apply Nat.eqb_eq in Eh. subst h.
      destruct (Hp _ _ _ _ I3 eq_refl Em) as (ch & n' & x' & HJ & Hsum & Hk).
      exists (Some (t, n', x')), a, (M ++ ch), (m ++ ch). eapply settle_place; eauto.
      * now rewrite app_assoc.
      * rewrite <- (app_nil_r theirs). apply merges_app; [exact I4|apply merges_left].
      * intros t' y' Ne E. destruct (I6 t' y' E) as [H1 H2]. split; auto. unfold place_of in *.
        destruct (Nat.eqb t' t) eqn:E2; [apply Nat.eqb_eq in E2; congruence|exact H2].
      * unfold place_of. now rewrite Nat.eqb_refl.
  - destruct (taken_by_someone (q_locks q) l) eqn:El; [discriminate|]. intros [= <-].
    destruct (place_of own t (q_st q)) as [|W n x|x] eqn:Ep; cbn [okp] in Hp; try contradiction.
    destruct l.
    + exists own, a, M, m. eapply settle_place; eauto. now rewrite Ep.
    + cbn in El. rewrite El in I1. destruct own as [[[h n1] x1]|]; [discriminate|].
      exists (Some (t, O, [])), a, M, m. eapply settle_place; eauto.
      * intros t' y' Ne E. destruct (I6 t' y' E) as [H1 H2]. split; auto. unfold place_of in *.
        destruct (Nat.eqb t' t) eqn:E2; [apply Nat.eqb_eq in E2; congruence|exact H2].
      * cbn. congruence.
      * unfold place_of. rewrite Nat.eqb_refl. apply Hp.
    + exists own, a, M, m. eapply settle_place; eauto. now rewrite Ep.
  - intros [= <-]. destruct (place_of own t (q_st q)) as [|W n x|x] eqn:Ep; cbn [okp] in Hp; [| |destruct l; contradiction].
    + destruct l; try contradiction; exists own, a, M, m; (eapply settle_place; eauto); now rewrite Ep.
    + destruct l; try contradiction. destruct Hp as [-> Hp].
      unfold place_of in Ep. destruct own as [[[h n1] x1]|]; [|discriminate]. destruct (Nat.eqb t h) eqn:Eh; [|discriminate].
      injection Ep as <- -> ->. apply Nat.eqb_eq in Eh. subst h. cbn [in_file so_far] in I5.
      assert (Ho : forall t' y, t' <> t -> nth_error (q_thr q) t' = Some y -> thr_ok None (q_st q) t' y).
      { intros t' y' Ne E. destruct (I6 t' y' E) as [H1 H2]. split; auto. unfold place_of in *.
        destruct (Nat.eqb t' t) eqn:E2; [apply Nat.eqb_eq in E2; congruence|exact H2]. }
      destruct x as [|z x].
      * exists None, a, M, m. eapply settle_place; eauto.
      * destruct p as [r|X m0 cont|l p|l p]; cbn [okp] in Hp; try contradiction.
        exists None, (a ++ z :: x), M, m. cbn [settle fin] in *. constructor; cbn [q_locks q_log q_st q_thr]; auto.
        -- constructor; auto.
        -- cbn [in_file so_far]. now rewrite app_nil_r.
        -- intros t' y' E. destruct (Nat.eq_dec t' t) as [->|Ne].
           ++ rewrite (nth_update_at _ _ _ _ Et) in E. injection E as <-. split; [exact Hl|reflexivity].
           ++ rewrite nth_update_off in E by auto. now apply Ho.
Qed.
Lemma others_inv d q theirs own a M m : linv q theirs own a M m ->
  linv (mkPool (q_locks q) (set_world (q_st q) (appended_to u d (b_w (q_st q)))) (q_thr q) (q_log q)) (theirs ++ d) own a M (m ++ d).
Proof.
  intros [I1 I2 (R & S & o & i & Ho & Hu & Ha & Hi & Hk & Hd) I4 I5 I6 I7]. constructor; cbn [q_locks q_log q_st q_thr]; auto.
  - split; [exact R|]. split; [exact S|]. cbn [set_world b_w]. unfold appended_to. rewrite Hi. eexists o, _. cbn. split; [exact Ho|].
    split; [exact Hu|]. split; [exact Ha|]. split; [apply upd_same, P_Raw.uid_eqb_refl|]. split; [exact Hk|]. cbn [n_data]. now rewrite Hd, app_assoc.
  - rewrite <- (app_nil_r M). apply merges_app; [exact I4|apply merges_right].
Qed.
Lemma run_inv : forall hs q q' theirs own a M m, linv q theirs own a M m -> log_run k u hs q = Some q' ->
  exists own' a' M' m', linv q' (theirs ++ by_others hs) own' a' M' m'.
Proof.
  induction hs as [|[t|d] hs IH]; intros q q' theirs own a M m I E; cbn [log_run by_others] in *.
  - injection E as <-. rewrite app_nil_r. eauto 8.
  - destruct (pstep (prog_of k) t q) as [q1|] eqn:Ep; [|discriminate].
    destruct (step_inv t q q1 theirs own a M m I Ep) as (own1 & a1 & M1 & m1 & I1). eapply IH; eauto.
  - rewrite app_assoc. eapply IH; [|exact E]. apply others_inv. exact I.
Qed.
Lemma new_linv w scripts : Jw w base -> Forall (Forall log_call) scripts ->
  linv (new_pool (fresh f size w) scripts) [] None [] [] [].
Proof.
  intros Hw Hs. constructor; cbn [new_pool q_locks q_log q_st q_thr]; auto.
  - constructor.
  - rewrite app_nil_r. repeat split; auto.
  - constructor.
  - intros t y E. apply nth_error_In, in_map_iff in E. destruct E as (s & <- & Hin). split; [|reflexivity].
    cbn. rewrite Forall_forall in Hs. now apply Hs.
Qed.

(** A flush when nobody is in a call. *)
Lemma flush_loop_J : forall fuel b r b' F, J b F -> flush_loop fuel b = (r, b') ->
  exists j, J b' (F ++ firstn j (b_wbuf b)) /\ b_wbuf b' = skipn j (b_wbuf b) /\ (r = Ok tt -> b_wbuf b' = []).
Proof.
  induction fuel as [|fuel IH]; intros b r b' F HJ E; cbn [flush_loop] in E.
  { injection E as <- <-. exists O. cbn. rewrite app_nil_r. repeat split; auto; try apply HJ. discriminate. }
  destruct (b_wbuf b) as [|z W'] eqn:EW.
  { injection E as <- <-. exists O. cbn. rewrite app_nil_r. repeat split; auto; apply HJ. }
  rewrite <- EW in *. clear W' z EW. destruct HJ as (R & S & HJ). unfold bind, on_raw in E. rewrite R in E.
  destruct (raw_write f (b_wbuf b) (b_w b)) as [r1 w] eqn:Er.
  destruct (raw_write_J _ _ _ _ F HJ Er) as [(n & -> & Hn & Jn)|[Hr Jn]].
  - destruct ((Z.of_nat (List.length (b_wbuf b)) <? n) || (n <? 0)) eqn:Eb.
    { exfalso. unfold len in Hn. apply orb_true_iff in Eb. destruct Eb as [Eb|Eb]; apply Z.ltb_lt in Eb; lia. }
    destruct (IH (set_wbuf (set_world b w) (skipn (Z.to_nat n) (b_wbuf (set_world b w)))) r b' (F ++ firstn (Z.to_nat n) (b_wbuf b)) ltac:(repeat split; auto) E) as (j & J1 & W1 & Z1). cbn [set_wbuf set_world b_wbuf] in J1, W1.
    exists (Z.to_nat n + j)%nat. rewrite <- app_assoc in J1. rewrite skipn_skipn in W1.
    replace (firstn (Z.to_nat n + j) (b_wbuf b)) with (firstn (Z.to_nat n) (b_wbuf b) ++ firstn j (skipn (Z.to_nat n) (b_wbuf b))).
    + split; [exact J1|]. split; [|exact Z1]. rewrite W1. f_equal; lia.
    + rewrite <- (firstn_skipn (Z.to_nat n) (b_wbuf b)) at 3. rewrite firstn_app. rewrite firstn_firstn.
      rewrite (Nat.min_r (Z.to_nat n + j) (Z.to_nat n)) by lia. f_equal. f_equal. unfold len in Hn. rewrite firstn_length. lia.
  - assert (G : J b' F /\ b_wbuf b' = b_wbuf b /\ r <> Ok tt).
    { destruct r1 as [[n|]|e]; [exfalso; now apply (Hr n)|..]; injection E as <- <-; (split; [repeat split; auto|]; split; [reflexivity|discriminate]). }
    destruct G as (G1 & G2 & G3). exists O. cbn. rewrite app_nil_r. split; [exact G1|]. split; [exact G2|]. intros X; contradiction.
Qed.
End Log.

(** A stream in append mode on a regular file [u] with content [c0]: nothing is asked of the other arguments, nor of the
    system calls. *)
Record append_stream (f : rawio) (w : world) (u : uid) (c0 : list Z) : Prop := mkAps {
  as_fd : exists o, w_fds w (fd_of f) = Some o /\ o_uid o = u /\ o_app o = true;
  as_ino : exists i, w_inodes w u = Some i /\ n_kind i = KReg /\ n_data i = c0 }.

(** Any number of threads, streams of all kinds, any calls but truncate() and close(), any schedule, system calls that fail or
    transfer less than asked, other processes appending between any two steps: at any moment the file is what it was, followed by bytes of
    the threads and of the others, each in their order; and when no call is in progress those of the threads, followed by what waits in
    the buffer, are exactly the bytes that the calls took, in the order in which they returned. *)
Theorem C103_nothing_lost_or_reordered : forall k f size w u c0 scripts hs q,
  0 < size -> append_stream f w u c0 -> Forall (Forall log_call) scripts ->
  log_run k u hs (new_pool (fresh f size w) scripts) = Some q ->
  exists mine m, holds_file (b_w (q_st q)) u (c0 ++ m) /\ merges mine (by_others hs) m
    /\ (Forall idle (q_thr q) -> all_take (q_log q) (mine ++ b_wbuf (q_st q))).
Proof.
  intros k f size w u c0 scripts hs q Hs [(o & Ho & Hu & Ha) (i & Hi & Hk & Hd)] Hl E.
  assert (Hw : Jw f u w c0) by (exists o, i; auto 8).
  destruct (run_inv f size u Hs k c0 hs _ q _ _ _ _ _ (new_linv f size u c0 w scripts Hw Hl) E) as (own & a & M & m & [I1 I2 I3 I4 I5 I6 I7]).
  exists M, m. split; [|split; [exact I4|]].
  - destruct I3 as (_ & _ & o' & i' & _ & _ & _ & Hi' & _ & Hd'). exists i'. auto.
  - intros Id. destruct own as [[[h n] x]|].
    + exfalso. destruct (nth_error (q_thr q) h) as [y|] eqn:Eh; [|contradiction]. destruct (I6 h y Eh) as [_ H].
      rewrite Forall_forall in Id. rewrite (Id y (nth_error_In _ _ Eh)) in H. unfold place_of in H. rewrite Nat.eqb_refl in H. discriminate.
    + cbn [in_file so_far skipn] in I5. rewrite app_nil_r in I5. rewrite I5. exact I2.
Qed.

(** A flush() that succeeds then puts all of them into the file; one that fails keeps this account. *)
Theorem C103_flush : forall k f size w u c0 scripts hs q r b',
  k <> BReader -> 0 < size -> append_stream f w u c0 -> Forall (Forall log_call) scripts ->
  log_run k u hs (new_pool (fresh f size w) scripts) = Some q -> Forall idle (q_thr q) ->
  b_flush k (q_st q) = (r, b') ->
  exists mine m, holds_file (b_w b') u (c0 ++ m) /\ merges mine (by_others hs) m /\ all_take (q_log q) (mine ++ b_wbuf b')
    /\ (r = Ok tt -> b_wbuf b' = []).
Proof.
  intros k f size w u c0 scripts hs q r b' K Hs [(o & Ho & Hu & Ha) (i & Hi & Hk & Hd)] Hl E Id Ef.
  assert (Hw : Jw f u w c0) by (exists o, i; auto 8).
  destruct (run_inv f size u Hs k c0 hs _ q _ _ _ _ _ (new_linv f size u c0 w scripts Hw Hl) E) as (own & a & M & m & [I1 I2 I3 I4 I5 I6 I7]).
  destruct own as [[[h n] x]|].
  { exfalso. destruct (nth_error (q_thr q) h) as [y|] eqn:Eh; [|contradiction]. destruct (I6 h y Eh) as [_ H].
    rewrite Forall_forall in Id. rewrite (Id y (nth_error_In _ _ Eh)) in H. unfold place_of in H. rewrite Nat.eqb_refl in H. discriminate. }
  cbn [in_file so_far skipn] in I5. rewrite app_nil_r in I5.
  assert (X : exists j, J f size u b' ((c0 ++ m) ++ firstn j (b_wbuf (q_st q))) /\ b_wbuf b' = skipn j (b_wbuf (q_st q)) /\ (r = Ok tt -> b_wbuf b' = [])).
  { assert (Ef' : flush_unlocked (q_st q) = (r, b')) by (destruct k; [congruence|exact Ef..]).
    unfold flush_unlocked, bind, b_check_closed in Ef'. destruct (f_closed (b_raw (q_st q))).
    - injection Ef' as <- <-. exists O. cbn. rewrite app_nil_r. split; [exact I3|]. split; [reflexivity|discriminate].
    - eapply flush_loop_J; eauto. }
  destruct X as (j & (_ & _ & o' & i' & _ & _ & _ & Hi' & _ & Hd') & Hb & Hr).
  exists (M ++ firstn j (b_wbuf (q_st q))), (m ++ firstn j (b_wbuf (q_st q))).
  split; [exists i'; split; [exact Hi'|]; now rewrite Hd', app_assoc|].
  split; [rewrite <- (app_nil_r (by_others hs)); apply merges_app; [exact I4|apply merges_left]|].
  split; [|exact Hr]. rewrite Hb, <- app_assoc, firstn_skipn, I5. exact I2.
Qed.

(** A schedule without the steps of threads that have to wait or have nothing to do. *)
Fixpoint possible (k : bkind) (u : uid) (hs : list happening) (q : pool tcall rout) : list happening :=
  match hs with
  | [] => []
  | ByThread t :: r => match pstep (prog_of k) t q with Some q1 => ByThread t :: possible k u r q1 | None => possible k u r q end
  | ByOthers d :: r => ByOthers d :: possible k u r (mkPool (q_locks q) (set_world (q_st q) (appended_to u d (b_w (q_st q)))) (q_thr q) (q_log q))
  end.
Definition by_turns (n : nat) : list happening := List.concat (repeat [ByThread 0; ByThread 1; ByThread 2] n).

(** Two threads write while a third one asks for the position; another process appends in the middle of a write(), whose second
    system call would block. *)
Example C103_example :
  let '(f, w) := demo_open "f" true true true (demo [1;2] [IoFull; IoShort 2; IoErr 11] [] []) in
  let q0 : pool tcall rout :=
    new_pool (fresh f 2 w) [[TOp (BoWrite [11;12;13;14;15]); TOp (BoWrite [16])]; [TOp (BoWrite [21;22;23]); TOp BoFlush]; [TOp BoTell]] in
  let hs := possible BRandom (1, 10) (by_turns 11 ++ [ByOthers [7]] ++ by_turns 1 ++ [ByOthers [8; 9]] ++ by_turns 60) q0 in
  match log_run BRandom (1, 10) hs q0 with
  | Some q => content (b_w (q_st q)) (1, 10) = [1;2; 11;12; 7;8;9; 13;14; 21;22;23; 16] /\ by_others hs = [7;8;9] /\ b_wbuf (q_st q) = []
      /\ map snd (q_log q) = [OInt 2; OErr (EBlocking 4); OInt 3; OInt 1; OUnit] /\ forallb (fun y => match t_now y with None => true | _ => false end) (q_thr q) = true
  | None => False
  end.
Proof. vm_compute. repeat split; reflexivity. Qed.
Example C103_setting_inhabited :
  let '(f, w) := demo_open "f" true true true (demo [1;2] [] [] []) in append_stream f w (1, 10) [1;2].
Proof. vm_compute. split; eexists; repeat split; reflexivity. Qed.
Print Assumptions C103_nothing_lost_or_reordered.
Print Assumptions C103_flush.
