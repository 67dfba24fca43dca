(** Computations that only add to a file. *)
From Coq Require Import ZArith List Bool Lia.
From Verif Require Import M_Base M_Modes M_Registry M_Kernel M_World M_Raw M_Buffered M_Threads S_Bytes S_Raw S_Buffered
  S_Threads S_Demo S_Appends P_Bytes P_Registry P_Raw P_Frame P_Close.
Import ListNotations.
Open Scope Z_scope.

Definition grows (u : uid) (fd : Z) (w w' : world) : Prop :=
  appends_to u fd w -> appends_to u fd w' /\ exists x, content w' u = content w u ++ x.
Lemma grows_refl u fd w : grows u fd w w.
Proof. intros H. split; auto. exists []. now rewrite app_nil_r. Qed.
Lemma grows_trans u fd a b c : grows u fd a b -> grows u fd b c -> grows u fd a c.
Proof.
  intros H1 H2 Ha. destruct (H1 Ha) as (Hb & x & E1). destruct (H2 Hb) as (Hc & y & E2). split; auto.
  exists (x ++ y). now rewrite E2, E1, app_assoc.
Qed.
Lemma appends_rawf u fd w w' : rawf fd w w' -> appends_to u fd w -> appends_to u fd w'.
Proof.
  intros F [H1 H2]. split.
  - intros o' Ho' Hu. pose proof (rf_fd _ _ _ F) as S. unfold same_ofd in S. rewrite Ho' in S.
    destruct (w_fds w fd) as [o|] eqn:Eo; [|contradiction]. destruct S as (S1 & _ & _ & S4 & _). rewrite S4. apply H1; congruence.
  - intros i Hi. pose proof (rf_kind _ _ _ F u) as K. rewrite Hi in K. destruct (w_inodes w u) as [j|] eqn:Ej; [|discriminate].
    cbn in K. injection K as ->. now apply H2.
Qed.
Lemma grows_rawf u fd w w' : rawf fd w w' -> content w' u = content w u -> grows u fd w w'.
Proof. intros F E H. split; [eapply appends_rawf; eauto|]. exists []. now rewrite app_nil_r. Qed.
Lemma grows_kept u fd w w' : kept w w' -> grows u fd w w'.
Proof.
  intros K [H1 H2]. split; [split|].
  - intros o Ho. destruct (kp_fds _ _ K fd) as [E|E]; rewrite E in Ho; [now apply H1|discriminate].
  - intros i. rewrite (kp_inodes _ _ K). apply H2.
  - exists []. unfold content. now rewrite (kp_inodes _ _ K), app_nil_r.
Qed.

Definition adds {A} (u : uid) (fd : Z) (m : M A) : Prop := forall w r w', m w = (r, w') -> grows u fd w w'.
Lemma adds_ret {A} u fd (a : A) : adds u fd (ret a).
Proof. intros w r w' [= <- <-]. apply grows_refl. Qed.
Lemma adds_raise {A} u fd e : adds u fd (raise e : M A).
Proof. intros w r w' [= <- <-]. apply grows_refl. Qed.
Lemma adds_bind {A C} u fd (m : M A) (k : A -> M C) : adds u fd m -> (forall a, adds u fd (k a)) -> adds u fd (bind m k).
Proof.
  intros Hm Hk w r w'. unfold bind. destruct (m w) as [[a|e] w1] eqn:E.
  - intros H. eapply grows_trans; [eapply Hm; eauto|eapply Hk; eauto].
  - intros [= <- <-]. eapply Hm; eauto.
Qed.

(** System calls. *)
Definition still {A} (u : uid) (fd : Z) (m : M A) : Prop := forall w r w', m w = (r, w') -> appends_to u fd w -> content w' u = content w u.
Lemma still_adds {A} u fd (m : M A) : within fd m -> still u fd m -> adds u fd m.
Proof. intros Hw Hs w r w' E Ha. apply grows_rawf; auto; [eapply Hw; eauto|eapply Hs; eauto]. Qed.
Lemma content_fd w u fd o : content (upd_fd w fd o) u = content w u.
Proof. reflexivity. Qed.
Lemma content_io w u l : content (set_io w l) u = content w u.
Proof. reflexivity. Qed.
Lemma fstat_adds u fd : adds u fd (sys_fstat fd).
Proof.
  apply still_adds; [apply sys_fstat_within|]. intros w r w'. unfold sys_fstat, bind. destruct (get_fd fd w) as [r1 w1] eqn:E.
  apply get_fd_cases in E. destruct E as [-> [->|(o & i & _ & _ & ->)]]; intros [= <- <-]; auto.
Qed.
Lemma lseek_adds u fd off wh : adds u fd (sys_lseek fd off wh).
Proof.
  apply still_adds; [apply sys_lseek_within|]. intros w r w'. unfold sys_lseek, bind. destruct (get_fd fd w) as [r1 w1] eqn:E.
  apply get_fd_cases in E. destruct E as [-> [->|(o & i & Ho & Hi & ->)]].
  { intros [= <- <-]. auto. }
  destruct (n_kind i); try (intros [= <- <-]; auto; fail);
    (destruct (wh =? 0); [|destruct (wh =? 1); [|destruct (wh =? 2)]]);
    try (intros [= <- <-]; auto; fail); (destruct (_ <? 0); intros [= <- <-]; auto).
Qed.
Lemma content_other w u v i : v <> u -> content (upd_ino w v i) u = content w u.
Proof. intros H. unfold content. cbn. now rewrite upd_other by now apply P_Raw.uid_eqb_neq. Qed.
Lemma content_same w u i : content (upd_ino w u i) u = n_data i.
Proof. unfold content. cbn. now rewrite upd_same by apply P_Raw.uid_eqb_refl. Qed.
Lemma read_adds u fd n : adds u fd (sys_read fd n).
Proof.
  apply still_adds; [apply sys_read_within|]. intros w r w'. unfold sys_read, bind. destruct (get_fd fd w) as [r1 w1] eqn:E.
  apply get_fd_cases in E. destruct E as [-> [->|(o & i & Ho & Hi & ->)]].
  { intros [= <- <-]. auto. }
  destruct (negb (o_rd o)). { intros [= <- <-]. auto. }
  destruct (n_kind i) eqn:Ek.
  - destruct (n <? 0). { intros [= <- <-]. auto. }
    rewrite next_io_eq. destruct (hd IoFull (w_io w)); intros [= <- <-]; auto.
  - intros [= <- <-]. auto.
  - destruct (n <? 0). { intros [= <- <-]. auto. }
    rewrite next_io_eq. destruct (hd IoFull (w_io w)); intros [= <- <-]; auto; intros [A1 A2].
    + destruct (uid_dec (o_uid o) u) as [X|X]; [|now rewrite content_other by auto]. subst u. apply A2 in Hi. congruence.
    + destruct (uid_dec (o_uid o) u) as [X|X]; [|now rewrite content_other by auto]. subst u. apply A2 in Hi. congruence.
Qed.
Lemma write_adds u fd b : adds u fd (sys_write fd b).
Proof.
  intros w r w' E Ha. pose proof Ha as [A1 A2].
  assert (F : rawf fd w w') by (eapply sys_write_within; eauto). split; [eapply appends_rawf; eauto|].
  revert E. unfold sys_write, bind. destruct (get_fd fd w) as [r1 w1] eqn:E.
  apply get_fd_cases in E. destruct E as [-> [->|(o & i & Ho & Hi & ->)]].
  { intros [= <- <-]. exists []. now rewrite app_nil_r. }
  destruct (negb (o_wr o)). { intros [= <- <-]. exists []. now rewrite app_nil_r. }
  rewrite next_io_eq.
  assert (X : forall k c d p, w' = upd_fd (upd_ino (set_io w (tl (w_io w))) (o_uid o)
       (mkIno k (write_at (n_data i) (Z.to_nat (if o_app o then Z.of_nat (length (n_data i)) else o_pos o)) c) d)) fd p ->
     exists x, content w' u = content w u ++ x).
  { intros k c d p ->. rewrite content_fd. destruct (uid_dec (o_uid o) u) as [X|X].
    - assert (Ea : o_app o = true) by (apply A1; auto). rewrite Ea, Nat2Z.id, write_at_end. exists c. subst u. rewrite content_same.
      unfold content. now rewrite Hi.
    - exists []. now rewrite app_nil_r, content_other by auto. }
  assert (Y : forall c d, w' = upd_ino (set_io w (tl (w_io w))) (o_uid o) (mkIno KPipe (n_data i ++ c) d) -> n_kind i = KPipe ->
     exists x, content w' u = content w u ++ x).
  { intros c d -> Hk. destruct (uid_dec (o_uid o) u) as [X'|X'].
    - subst u. apply A2 in Hi. congruence.
    - exists []. now rewrite app_nil_r, content_other by auto. }
  destruct (hd IoFull (w_io w)); [| |intros [= <- <-]; exists []; now rewrite app_nil_r];
    (destruct (n_kind i) eqn:Ek; intros [= <- <-]; [eapply X; reflexivity|eapply X; reflexivity|eapply Y; reflexivity]).
Qed.

(** Methods of the raw stream. *)
Section RAW.
Variable u : uid.
Lemma check_closed_adds fd f : adds u fd (check_closed f).
Proof. unfold check_closed. destruct (f_closed f); [apply adds_raise|apply adds_ret]. Qed.
Lemma check_readable_adds fd f : adds u fd (check_readable f).
Proof. unfold check_readable. apply adds_bind; [apply check_closed_adds|intros _]. destruct (f_readable f); [apply adds_ret|apply adds_raise]. Qed.
Lemma check_writable_adds fd f : adds u fd (check_writable f).
Proof. unfold check_writable. apply adds_bind; [apply check_closed_adds|intros _]. destruct (f_writable f); [apply adds_ret|apply adds_raise]. Qed.
Lemma raw_size_adds f : adds u (fd_of f) (raw_size f).
Proof. apply adds_bind; [apply check_closed_adds|intros _]. apply adds_bind; [apply fstat_adds|intros]. apply adds_ret. Qed.
Lemma raw_tell_adds f : adds u (fd_of f) (raw_tell f).
Proof. apply adds_bind; [apply check_closed_adds|intros _]. apply lseek_adds. Qed.
Lemma raw_seek_adds f off wh : adds u (fd_of f) (raw_seek f off wh).
Proof. apply adds_bind; [apply check_closed_adds|intros _]. apply lseek_adds. Qed.
Lemma inner_read_adds f n : adds u (fd_of f) (inner_read f n).
Proof.
  intros w r w'. unfold inner_read. destruct (sys_read (fd_of f) n w) as [r1 w1] eqn:E.
  apply (read_adds u) in E. intros H.
  destruct r1 as [d|[]]; try (injection H as <- <-; exact E).
  destruct (errno =? EAGAIN); [|destruct (errno =? EPIPE)]; injection H as <- <-; exact E.
Qed.
Lemma inner_write_adds f b : adds u (fd_of f) (inner_write f b).
Proof.
  intros w r w'. unfold inner_write. destruct (sys_write (fd_of f) b w) as [r1 w1] eqn:E.
  apply (write_adds u) in E. intros H.
  destruct r1 as [d|[]]; try (injection H as <- <-; exact E).
  destruct (errno =? EAGAIN); injection H as <- <-; exact E.
Qed.
Lemma raw_write_adds f b : adds u (fd_of f) (raw_write f b).
Proof.
  apply adds_bind; [apply check_closed_adds|intros _]. apply adds_bind; [apply check_writable_adds|intros _].
  apply adds_bind; [apply inner_write_adds|intros [n|]]; [|apply adds_ret].
  destruct (_ && _); [apply adds_raise|]. destruct (_ || _); [apply adds_raise|apply adds_ret].
Qed.
Lemma readall_loop_adds f : forall k acc, adds u (fd_of f) (readall_loop k f acc).
Proof.
  induction k; intros acc; cbn [readall_loop]; [apply adds_raise|].
  apply adds_bind.
  - apply adds_bind; [apply check_closed_adds|intros _]. apply adds_bind; [apply check_readable_adds|intros _].
    apply inner_read_adds.
  - intros [[|x d]|]; try apply adds_ret. apply IHk.
Qed.
Lemma readall_fuel_adds f : adds u (fd_of f) (readall_fuel f).
Proof. intros w r w' [= <- <-]. apply grows_refl. Qed.
Lemma raw_readall_adds f : adds u (fd_of f) (raw_readall f).
Proof. apply adds_bind; [apply readall_fuel_adds|intros; apply readall_loop_adds]. Qed.
Lemma raw_read_adds f n : adds u (fd_of f) (raw_read f n).
Proof.
  apply adds_bind; [apply check_closed_adds|intros _]. apply adds_bind; [apply check_readable_adds|intros _].
  destruct n as [n|]; [|apply raw_readall_adds].
  destruct (n <? 0); [apply raw_readall_adds|apply inner_read_adds].
Qed.
Lemma raw_close_adds f : adds u (fd_of f) (raw_close f).
Proof. intros w r w' E. apply grows_kept. eapply raw_close_kept; eauto. Qed.

(** Steps of a stream: the raw stream stays the same, or is closed. *)
Definition bgrows (b b' : bstate) : Prop :=
  f_fd (b_raw b') = f_fd (b_raw b) /\ grows u (fd_of (b_raw b)) (b_w b) (b_w b').
Definition badds {X} (m : bstate -> X * bstate) : Prop := forall b x b', m b = (x, b') -> bgrows b b'.
Lemma bgrows_refl b : bgrows b b.
Proof. split; auto using grows_refl. Qed.
Lemma badds_on_raw {A} (m : rawio -> M A) : (forall f, adds u (fd_of f) (m f)) -> badds (on_raw m).
Proof.
  intros H b x b'. unfold on_raw. destruct (m (b_raw b) (b_w b)) as [r w] eqn:E. intros [= <- <-]. split; auto. cbn. eapply H; eauto.
Qed.
Lemma bgrows_trans a b c : bgrows a b -> bgrows b c -> bgrows a c.
Proof.
  intros [F1 G1] [F2 G2]. split; [congruence|]. assert (Ef : fd_of (b_raw b) = fd_of (b_raw a)) by (unfold fd_of; now rewrite F1).
  rewrite Ef in G2. eapply grows_trans; eauto.
Qed.
Lemma badds_bind {A C} (m : B A) (k : A -> B C) : badds m -> (forall a, badds (k a)) -> badds (bind m k).
Proof.
  intros Hm Hk b x b'. unfold bind. destruct (m b) as [[a|e] b1] eqn:E.
  - intros H. eapply bgrows_trans; [eapply Hm; eauto|eapply Hk; eauto].
  - intros [= <- <-]. eapply Hm; eauto.
Qed.
Lemma badds_pure {X} (f : bstate -> X * bstate) : (forall b, b_raw (snd (f b)) = b_raw b /\ b_w (snd (f b)) = b_w b) -> badds f.
Proof.
  intros H b x b' E. destruct (H b) as [H1 H2]. rewrite E in H1, H2. cbn in *. split; [now rewrite H1|]. rewrite H2. apply grows_refl.
Qed.

(** All steps of a program. *)
Inductive padds {A} : prog A -> Prop :=
| PA_ret : forall a, padds (PRet a)
| PA_act : forall X (m : bstate -> X * bstate) k, badds m -> (forall x, padds (k x)) -> padds (PAct m k)
| PA_acq : forall l p, padds p -> padds (PAcq l p)
| PA_rel : forall l p, padds p -> padds (PRel l p).
Lemma padds_seq {A C} (p : prog A) (f : A -> prog C) : padds p -> (forall a, padds (f a)) -> padds (pseq p f).
Proof. intros Hp Hf. induction Hp; cbn [pseq]; auto; constructor; auto. Qed.
Lemma padds_bind {A C} (p : prog (res A)) (f : A -> prog (res C)) : padds p -> (forall a, padds (f a)) -> padds (pbind p f).
Proof. intros Hp Hf. apply padds_seq; auto. intros [a|e]; auto. constructor. Qed.
Lemma padds_pret {A} (a : A) : padds (pret a).
Proof. constructor. Qed.
Lemma padds_praise {A} e : padds (praise e : prog (res A)).
Proof. constructor. Qed.
Lemma padds_act {X} (m : B X) : badds m -> padds (act m).
Proof. intros H. constructor; auto. intros. constructor. Qed.
Lemma padds_attr {X} (f : bstate -> X) : padds (attr f).
Proof. apply padds_act, badds_pure. auto. Qed.
Lemma padds_with {A} l (p : prog A) : padds p -> padds (with_lk l p).
Proof. intros H. constructor. apply padds_seq; auto. intros. constructor. constructor. Qed.
Lemma padds_lift {A} (f : A -> rout) p : padds p -> padds (plift f p).
Proof. intros H. apply padds_seq; auto. intros. constructor. Qed.

Lemma badds_check : badds b_check_closed.
Proof. apply badds_pure. intros b. unfold b_check_closed. destruct (f_closed (b_raw b)); auto. Qed.
Lemma badds_reset : badds reset_read_buf.
Proof. apply badds_pure. auto. Qed.
Lemma badds_ret {A} (a : A) : badds (ret a : B A).
Proof. apply badds_pure. auto. Qed.
Lemma badds_raise {A} e : badds (raise e : B A).
Proof. apply badds_pure. auto. Qed.
Lemma badds_undo : badds undo_readahead.
Proof.
  intros b x b' E. unfold undo_readahead in E. revert E. apply badds_bind; [apply badds_on_raw; intros; apply raw_seek_adds|]. intros. apply badds_ret.
Qed.
Lemma badds_mixin_seek p wh : badds (mixin_seek p wh).
Proof. apply badds_bind; [apply badds_on_raw; intros; apply raw_seek_adds|]. intros n. destruct (n <? 0); [apply badds_raise|apply badds_ret]. Qed.
Lemma badds_mixin_tell : badds mixin_tell.
Proof. apply badds_bind; [apply badds_on_raw; intros; apply raw_tell_adds|]. intros n. destruct (n <? 0); [apply badds_raise|apply badds_ret]. Qed.
Lemma badds_fuel : badds read_fuel.
Proof. apply badds_bind; [apply badds_on_raw; intros; apply readall_fuel_adds|]. intros n. apply badds_ret. Qed.
Lemma badds_close : badds raw_close_b.
Proof.
  intros b x b'. unfold raw_close_b. destruct (raw_close (b_raw b) (b_w b)) as [r w] eqn:E. intros [= <- <-]. split; [reflexivity|].
  cbn. eapply raw_close_adds; eauto.
Qed.

Create HintDb grow.
Ltac grow := repeat first
  [ solve [auto with grow] | progress cbn zeta | apply padds_pret | apply padds_praise | apply padds_attr | apply padds_with | apply padds_act, badds_check | apply padds_act, badds_reset
  | apply padds_act, badds_undo | apply padds_act, badds_mixin_seek | apply padds_act, badds_mixin_tell | apply padds_act, badds_fuel
  | apply padds_act, badds_close
  | apply padds_act, badds_on_raw; intros; (apply raw_write_adds || apply raw_read_adds || apply raw_readall_adds || apply raw_seek_adds
                                            || apply raw_tell_adds || apply raw_size_adds || apply check_closed_adds)
  | apply padds_act, badds_pure; solve [auto | intros b; cbn beta; destruct (b_size b <? Z.of_nat (length (b_wbuf b))); auto]
  | apply padds_bind; [|intros] | apply padds_seq; [|intros] | constructor
  | match goal with |- padds (match ?x with _ => _ end) => destruct x end
  | match goal with |- padds (if ?x then _ else _) => destruct x end ].

Lemma flush_loop_padds : forall n, padds (p_flush_loop n).
Proof. induction n; cbn [p_flush_loop]; grow. Qed.
Hint Resolve flush_loop_padds : grow.
Lemma flush_unlocked_padds : padds p_flush_unlocked.
Proof. unfold p_flush_unlocked. grow. Qed.
Hint Resolve flush_unlocked_padds : grow.
Lemma flush_padds k : padds (p_flush k).
Proof. unfold p_flush. grow. Qed.
Hint Resolve flush_padds : grow.
Lemma writer_write_padds d : padds (p_writer_write d).
Proof.
  unfold p_writer_write. cbn zeta. grow.
Qed.
Hint Resolve writer_write_padds : grow.
Lemma write_padds k d : padds (p_write k d).
Proof. unfold p_write. grow. Qed.
Lemma seek_padds k p wh : padds (p_seek k p wh).
Proof. unfold p_seek. grow. Qed.
Lemma reader_tell_padds : padds p_reader_tell.
Proof. unfold p_reader_tell. grow. Qed.
Lemma writer_tell_padds : padds p_writer_tell.
Proof. unfold p_writer_tell. grow. Qed.
Hint Resolve reader_tell_padds writer_tell_padds : grow.
Lemma tell_padds k : padds (p_tell k).
Proof. unfold p_tell. grow. Qed.
Lemma fill_loop_padds : forall n wanted m out, padds (p_fill_loop n wanted m out).
Proof. induction n; intros; cbn [p_fill_loop]; grow. Qed.
Hint Resolve fill_loop_padds : grow.
Lemma read_unlocked_padds n : padds (p_read_unlocked n).
Proof. unfold p_read_unlocked. grow. Qed.
Hint Resolve read_unlocked_padds : grow.
Lemma reader_read_padds n : padds (p_reader_read n).
Proof. unfold p_reader_read. grow. Qed.
Hint Resolve reader_read_padds : grow.
Lemma read_padds k n : padds (p_read k n).
Proof. unfold p_read. grow. Qed.
Lemma peek_unlocked_padds n : padds (p_peek_unlocked n).
Proof. unfold p_peek_unlocked. grow. Qed.
Hint Resolve peek_unlocked_padds read_padds : grow.
Lemma reader_peek_padds n : padds (p_reader_peek n).
Proof. unfold p_reader_peek. grow. Qed.
Hint Resolve reader_peek_padds : grow.
Lemma peek_padds k n : padds (p_peek k n).
Proof. unfold p_peek. grow. Qed.
Hint Resolve peek_padds : grow.
Lemma reader_read1_padds n : padds (p_reader_read1 n).
Proof. unfold p_reader_read1. cbn zeta. grow. Qed.
Hint Resolve reader_read1_padds : grow.
Lemma read1_padds k n : padds (p_read1 k n).
Proof. unfold p_read1. grow. Qed.
Lemma readline_loop_padds k size : forall n got, padds (p_readline_loop n k size got).
Proof. induction n; intros; cbn [p_readline_loop]; cbn zeta; grow. Qed.
Hint Resolve readline_loop_padds : grow.
Lemma readline_padds k n : padds (p_readline k n).
Proof. unfold p_readline. grow. Qed.
Lemma size_padds k : padds (p_size k).
Proof. unfold p_size. grow. Qed.
Lemma close_padds k : padds (p_close k).
Proof. unfold p_close, closing. destruct k; grow. Qed.

Lemma prog_padds k c : no_truncate c -> padds (prog_of k c).
Proof.
  intros H. destruct c as [op|n|]; [destruct op|..]; cbn [prog_of]; cbn zeta; try (exfalso; eapply H; reflexivity);
    apply padds_lift; auto using read_padds, read1_padds, peek_padds, write_padds, seek_padds, tell_padds, size_padds, flush_padds,
      readline_padds, close_padds.
Qed.
End RAW.
