(** The buffered streams of windows and of unix compute the same, step by step. *)
From Coq Require Import ZArith List Bool Lia.
From Verif Require Import M_Base M_Registry M_World M_Raw M_Windows M_Buffered M_WinBuffered S_Bytes S_Raw S_Buffered P_Bytes P_Raw
  P_Buffered C_Windows.
Import ListNotations.
Open Scope Z_scope.

(** The same file, at the same position, with the same rights; no call would block; in append mode no call fails.
    [q]: every call of the system handles all bytes. *)
Record twins (u : uid) (q : bool) (f : rawio) (w : world) (v : wio) (x : wfile) (o : ofd) (i : inode) : Prop := mkTwins {
  tw_live : live f w o i;
  tw_uid : o_uid o = u;
  tw_data : n_data i = x_data x;
  tw_pos : o_pos o = x_pos x;
  tw_app : o_app o = v_append v;
  tw_rd : f_readable f = v_readable v;
  tw_wr : f_writable f = v_writable v;
  tw_ord : f_readable f = true -> o_rd o = true;
  tw_owr : f_writable f = true -> o_wr o = true;
  tw_open : v_closed v = false;
  tw_io : w_io w = x_io x;
  tw_zero : zeroing x;
  tw_again : ~ In (IoErr EAGAIN) (x_io x);
  tw_noerr : v_append v = true -> x_no_err x;
  tw_quiet : q = true -> x_io x = [] }.

Definition Rr (u : uid) (q : bool) (f : rawio) (v : wio) (w : world) (x : wfile) : Prop := exists o i, twins u q f w v x o i.

Lemma x_next_eq x : x_next x = (Ok (hd IoFull (x_io x)), x_set_io x (tl (x_io x))).
Proof. unfold x_next. destruct x as [d p [|e l] j]; reflexivity. Qed.
Lemma fill_pad_zero x n : zeroing x -> fill_to (x_junk x) n (x_data x) = pad_to n (x_data x).
Proof. intros Zx. now apply fill_zero. Qed.

Section Raw.
  Variables (u : uid) (q : bool) (f : rawio) (v : wio).
  Notation R := (Rr u q f v).

  Definition simM {A} (m1 : M A) (m2 : W A) : Prop :=
    forall w x, R w x -> exists r w' x', m1 w = (r, w') /\ m2 x = (r, x') /\ R w' x'.

  Lemma tw_next w x o i : twins u q f w v x o i -> twins u q f (set_io w (tl (w_io w))) v (x_set_io x (tl (x_io x))) o i.
  Proof.
    intros []. constructor; auto; cbn.
    - now apply live_io.
    - now rewrite tw_io0.
    - intros X. apply tw_again0. now apply incl_tl_refl.
    - intros A e X. apply (tw_noerr0 A e). now apply incl_tl_refl.
    - intros Q. now rewrite (tw_quiet0 Q).
  Qed.
  Lemma tw_move w x o i p : twins u q f w v x o i -> 0 <= p ->
    twins u q f (upd_fd w (fd_of f) (Some (set_pos o p))) v (x_set_pos x p) (set_pos o p) i.
  Proof. intros [] Hp. constructor; auto. now apply live_pos. Qed.
  Lemma tw_store w x o i d b : twins u q f w v x o i -> n_kind i = KReg ->
    twins u q f (upd_ino w u (mkIno KReg d b)) v (x_set_data x d) o (mkIno KReg d b).
  Proof. intros [] K. constructor; auto. rewrite <- tw_uid0. now apply live_data with (i := i). Qed.
  Lemma tw_refd w x o i : twins u q f w v x o i -> twins u q f (upd_fd w (fd_of f) (Some o)) v x o i.
  Proof. intros []. constructor; auto. now apply live_refd. Qed.

  Lemma x_set_pos_same x : x_set_pos x (x_pos x) = x.
  Proof. now destruct x. Qed.

  Lemma sim_check_closed : simM (check_closed f) (v_check_closed v).
  Proof.
    intros w x (o & i & T). exists (Ok tt), w, x. rewrite (check_closed_live _ _ _ _ (tw_live _ _ _ _ _ _ _ _ T)).
    unfold v_check_closed. rewrite (tw_open _ _ _ _ _ _ _ _ T). repeat split. now exists o, i.
  Qed.
  Lemma sim_size : simM (raw_size f) (v_size v).
  Proof.
    intros w x (o & i & T). exists (Ok (len (x_data x))), w, x.
    rewrite (raw_size_live _ _ _ _ (tw_live _ _ _ _ _ _ _ _ T)), (tw_data _ _ _ _ _ _ _ _ T).
    unfold v_size, bind, v_check_closed. rewrite (tw_open _ _ _ _ _ _ _ _ T). repeat split. now exists o, i.
  Qed.
  Lemma sim_seek off wh : valid_whence wh = true -> simM (fun w => raw_seek f off wh w) (fun x => v_seek v off wh x).
  Proof.
    intros V w x (o & i & T). pose proof (tw_live _ _ _ _ _ _ _ _ T) as L. unfold raw_seek, v_seek, bind.
    rewrite (check_closed_live _ _ _ _ L). unfold v_check_closed. rewrite (tw_open _ _ _ _ _ _ _ _ T).
    rewrite (inner_seek_live _ _ _ _ _ _ L). cbn [ret]. unfold v_inner_seek. change ((wh =? 0) || (wh =? 1) || (wh =? 2)) with (valid_whence wh).
    rewrite V. unfold set_file_pointer, seek_base. rewrite (tw_data _ _ _ _ _ _ _ _ T), (tw_pos _ _ _ _ _ _ _ _ T). fold (len (x_data x)).
    assert (Go : forall b, exists r w' x', (if b + off <? 0 then (Err (EOS EINVAL), w) else (Ok (b + off), upd_fd w (fd_of f) (Some (set_pos o (b + off))))) = (r, w')
       /\ (if b + off <? 0 then (Err (EOS EINVAL), x) else (Ok (b + off), x_set_pos x (b + off))) = (r, x') /\ R w' x').
    { intros b. destruct (Z.ltb_spec (b + off) 0).
      - exists (Err (EOS EINVAL)), w, x. repeat split. now exists o, i.
      - eexists _, _, _. repeat split. eexists _, _. apply tw_move; [exact T|lia]. }
    unfold valid_whence in V. destruct (wh =? 0); [apply Go|]. destruct (wh =? 1); [apply Go|]. destruct (wh =? 2); [apply Go|discriminate V].
  Qed.
  Lemma sim_tell : simM (raw_tell f) (v_tell v).
  Proof.
    intros w x (o & i & T). pose proof (tw_live _ _ _ _ _ _ _ _ T) as L. rewrite (raw_tell_live _ _ _ _ L).
    unfold v_tell, bind, v_check_closed. rewrite (tw_open _ _ _ _ _ _ _ _ T). cbn [ret]. unfold v_inner_tell, set_file_pointer. cbn [Z.eqb Pos.eqb].
    rewrite Z.add_0_r. pose proof (lv_pos _ _ _ _ L) as Hp. rewrite (tw_pos _ _ _ _ _ _ _ _ T) in *. destruct (Z.ltb_spec (x_pos x) 0); [lia|].
    rewrite x_set_pos_same. exists (Ok (x_pos x)), (upd_fd w (fd_of f) (Some o)), x. repeat split. exists o, i. now apply tw_refd.
  Qed.
  Lemma sim_flush : simM (raw_flush f) (v_flush v).
  Proof. apply sim_check_closed. Qed.

  Lemma sim_inner_read n : 0 <= n -> f_readable f = true -> simM (inner_read f n) (v_inner_read n).
  Proof.
    intros Hn Rf w x (o & i & T). pose proof (tw_live _ _ _ _ _ _ _ _ T) as L. unfold inner_read, v_inner_read.
    rewrite (sys_read_live _ _ _ _ _ L Hn (tw_ord _ _ _ _ _ _ _ _ T Rf)). unfold read_file, bind. rewrite x_next_eq.
    rewrite (tw_io _ _ _ _ _ _ _ _ T). pose proof (tw_next _ _ _ _ T) as T1. rewrite (tw_io _ _ _ _ _ _ _ _ T) in T1.
    assert (Go : forall e, exists r w' x',
       (Ok (Some (read_data o i e n)), upd_fd (set_io w (tl (x_io x))) (fd_of f) (Some (set_pos o (o_pos o + len (read_data o i e n))))) = (r, w')
       /\ (Ok (Some (firstn (io_count e (Z.to_nat n)) (skipn (Z.to_nat (x_pos x)) (x_data x)))),
           x_set_pos (x_set_io x (tl (x_io x))) (x_pos x + Z.of_nat (length (firstn (io_count e (Z.to_nat n)) (skipn (Z.to_nat (x_pos x)) (x_data x)))))) = (r, x')
       /\ R w' x').
    { intros e. unfold read_data. rewrite (tw_data _ _ _ _ _ _ _ _ T), (tw_pos _ _ _ _ _ _ _ _ T). eexists _, _, _. repeat split.
      eexists _, _. apply tw_move; [exact T1|]. pose proof (lv_pos _ _ _ _ L). rewrite (tw_pos _ _ _ _ _ _ _ _ T) in *.
      pose proof (len_nonneg (firstn (io_count e (Z.to_nat n)) (skipn (Z.to_nat (x_pos x)) (x_data x)))). lia. }
    destruct (hd IoFull (x_io x)) as [|k|e]; [exact (Go IoFull)|exact (Go (IoShort k))|].
    unfold raise. destruct (e =? EAGAIN); [|destruct (e =? EPIPE)]; eexists _, _, _; repeat split; exists o, i; exact T1.
  Qed.

  Lemma sim_bind {A B} (m1 : M A) (m2 : W A) (k1 : A -> M B) (k2 : A -> W B) :
    simM m1 m2 -> (forall a, simM (k1 a) (k2 a)) -> simM (bind m1 k1) (bind m2 k2).
  Proof.
    intros S K w x H. destruct (S w x H) as (r & w1 & x1 & E1 & E2 & H1). unfold bind. rewrite E1, E2.
    destruct r as [a|e]; [exact (K a w1 x1 H1)|]. exists (Err e), w1, x1. auto.
  Qed.
  Lemma sim_ret {A} (a : A) : simM (ret a) (ret a).
  Proof. intros w x H. exists (Ok a), w, x. auto. Qed.
  Lemma sim_raise {A} e : simM (A:=A) (raise e) (raise e).
  Proof. intros w x H. exists (Err e), w, x. auto. Qed.
  Lemma sim_rights {A} (m1 : M A) (m2 : W A) : (f_readable f = true -> simM m1 m2) ->
    simM (check_readable f ;; m1) (v_check_readable v ;; m2).
  Proof.
    intros S w x H. pose proof H as (o & i & T). unfold bind at 1 2. rewrite (check_readable_live _ _ _ _ (tw_live _ _ _ _ _ _ _ _ T)).
    unfold v_check_readable, bind, v_check_closed. rewrite (tw_open _ _ _ _ _ _ _ _ T). cbn [ret]. rewrite <- (tw_rd _ _ _ _ _ _ _ _ T).
    destruct (f_readable f) eqn:F; [now apply S|]. exists (Err EUnsupported), w, x. auto.
  Qed.
  Lemma sim_ext {A} (m1 m1' : M A) (m2 : W A) : (forall w, m1 w = m1' w) -> simM m1' m2 -> simM m1 m2.
  Proof. intros E S w x H. rewrite E. now apply S. Qed.
  Lemma sim_readall_loop : forall k acc, simM (readall_loop k f acc) (v_readall_loop k v acc).
  Proof.
    induction k as [|k IH]; intros acc; cbn [readall_loop v_readall_loop]; [apply sim_raise|].
    eapply sim_ext with (m1' := check_closed f ;; check_readable f ;; d <- inner_read f DEFAULT_BUFFER_SIZE ;;
      match d with Some ((_ :: _) as b) => readall_loop k f (acc ++ b) | _ => ret (match acc with [] => d | _ => Some acc end) end).
    { intros w. unfold raw_read_n, bind. destruct (check_closed f w) as [[?|?] ?]; [|reflexivity]. destruct (check_readable f _) as [[?|?] ?]; reflexivity. }
    apply sim_bind; [apply sim_check_closed|intros _]. apply sim_rights. intros F. apply sim_bind; [now apply sim_inner_read|].
    intros [[|? ?]|]; try apply sim_ret. apply IH.
  Qed.
  Lemma sim_fuel : simM (readall_fuel f) (v_fuel v).
  Proof.
    intros w x H. pose proof H as (o & i & T). pose proof (tw_live _ _ _ _ _ _ _ _ T) as L. unfold readall_fuel, v_fuel.
    rewrite (lv_fd _ _ _ _ L), (lv_ino _ _ _ _ L), (tw_data _ _ _ _ _ _ _ _ T). eexists _, w, x. auto.
  Qed.
  Lemma sim_readall : simM (raw_readall f) (v_readall v).
  Proof.
    intros w x H. pose proof H as (o & i & T). pose proof (tw_live _ _ _ _ _ _ _ _ T) as L.
    unfold raw_readall, v_readall, bind, readall_fuel, get.
    rewrite (lv_fd _ _ _ _ L), (lv_ino _ _ _ _ L), (tw_data _ _ _ _ _ _ _ _ T). now apply sim_readall_loop.
  Qed.
  Lemma sim_read n : simM (fun w => raw_read f (Some n) w) (fun x => v_read v n x).
  Proof.
    apply sim_bind; [apply sim_check_closed|intros _]. apply sim_rights. intros F. destruct (Z.ltb_spec n 0); [apply sim_readall|now apply sim_inner_read].
  Qed.
  Lemma sim_readinto n : 0 <= n -> simM (fun w => raw_readinto f n w) (fun x => v_readinto v n x).
  Proof.
    intros Hn. apply sim_bind; [apply sim_check_closed|intros _]. apply sim_rights. intros F. apply sim_bind; [now apply sim_inner_read|].
    intros [d|]; [apply sim_ret|apply sim_raise].
  Qed.

  Lemma sim_writable {A} (m1 : M A) (m2 : W A) : (f_writable f = true -> simM m1 m2) ->
    simM (check_writable f ;; m1) (v_check_writable v ;; m2).
  Proof.
    intros S w x H. pose proof H as (o & i & T). unfold bind at 1 2. rewrite (check_writable_live _ _ _ _ (tw_live _ _ _ _ _ _ _ _ T)).
    unfold v_check_writable, bind, v_check_closed. rewrite (tw_open _ _ _ _ _ _ _ _ T). cbn [ret]. rewrite <- (tw_wr _ _ _ _ _ _ _ _ T).
    destruct (f_writable f) eqn:F; [now apply S|]. exists (Err EUnsupported), w, x. auto.
  Qed.

  (** Windows first moves to the end in append mode, and looks for a gap. *)
  Lemma v_inner_write_eq b x : 0 <= x_pos x -> v_inner_write v b x =
    (n <- write_file b ;; if n =? 0 then ret None else ret (Some n)) (x_set_pos x (if v_append v then len (x_data x) else x_pos x)).
  Proof.
    intros Hp. unfold v_inner_write. pose proof (len_nonneg (x_data x)) as Hl.
    assert (Go : forall y, 0 <= x_pos y -> (cur_pos <- v_inner_tell ;; size <- v_inner_size ;;
      (if size <? cur_pos then v_inner_extend v cur_pos true else ret tt) ;; n <- write_file b ;; (if n =? 0 then ret None else ret (Some n))) y
      = (n <- write_file b ;; if n =? 0 then ret None else ret (Some n)) y).
    { intros y Hy. unfold bind at 1. unfold v_inner_tell, set_file_pointer. cbn [Z.eqb Pos.eqb]. rewrite Z.add_0_r.
      destruct (Z.ltb_spec (x_pos y) 0); [lia|]. rewrite x_set_pos_same. unfold bind at 1. unfold v_inner_size, get_file_size.
      unfold bind at 1. unfold v_inner_extend. destruct (_ <? x_pos y); [destruct (Z.ltb_spec (x_pos y) 0); [lia|]|]; reflexivity. }
    unfold bind at 1. destruct (v_append v).
    - unfold bind at 1. unfold v_inner_seek. cbn [Z.eqb Pos.eqb orb]. unfold set_file_pointer. cbn [Z.eqb Pos.eqb]. rewrite Z.add_0_r. fold (len (x_data x)).
      destruct (Z.ltb_spec (len (x_data x)) 0); [lia|]. cbn [ret]. apply Go. exact Hl.
    - cbn [ret]. rewrite x_set_pos_same. now apply Go.
  Qed.

  Lemma sim_write b : b <> [] -> simM (fun w => raw_write f b w) (fun x => v_write v b x).
  Proof.
    intros Nb w x H. pose proof H as (o & i & T). pose proof (tw_live _ _ _ _ _ _ _ _ T) as L.
    pose proof (lv_pos _ _ _ _ L) as Hp. rewrite (tw_pos _ _ _ _ _ _ _ _ T) in Hp.
    unfold v_write, v_check_writable, bind at 1, v_check_closed. rewrite (tw_open _ _ _ _ _ _ _ _ T). unfold bind at 1 2. cbn [ret].
    rewrite <- (tw_wr _ _ _ _ _ _ _ _ T). destruct (f_writable f) eqn:F.
    2:{ exists (Err EUnsupported), w, x. unfold raw_write, bind. rewrite (check_closed_live _ _ _ _ L), (check_writable_live _ _ _ _ L), F. auto. }
    cbn [ret]. rewrite (raw_write_live _ _ _ _ b L F (tw_owr _ _ _ _ _ _ _ _ T F)). unfold bind. rewrite v_inner_write_eq by exact Hp.
    unfold write_file, bind. rewrite x_next_eq. cbn [x_io x_set_pos].
    rewrite (tw_io _ _ _ _ _ _ _ _ T). pose proof (tw_next _ _ _ _ T) as T1. rewrite (tw_io _ _ _ _ _ _ _ _ T) in T1.
    set (p := if v_append v then len (x_data x) else x_pos x) in *.
    assert (P : write_pos o i = p).
    { unfold write_pos, p. now rewrite (tw_app _ _ _ _ _ _ _ _ T), (tw_data _ _ _ _ _ _ _ _ T), (tw_pos _ _ _ _ _ _ _ _ T). }
    assert (Pn : 0 <= p) by (unfold p; destruct (v_append v); [apply len_nonneg|exact Hp]).
    assert (Go : forall e, let c := write_bytes e b in exists w' x',
        upd_fd (upd_ino (set_io w (tl (x_io x))) (o_uid o) (write_ino o i c)) (fd_of f) (Some (set_pos o (write_pos o i + len c))) = w'
        /\ x_set_pos (x_set_data (x_set_io (x_set_pos x p) (tl (x_io x)))
             (match c with [] => x_data x | _ => firstn (Z.to_nat p) (fill_to (x_junk x) (Z.to_nat p) (x_data x)) ++ c ++ skipn (Z.to_nat p + length c) (x_data x) end))
             (p + Z.of_nat (length c)) = x' /\ R w' x').
    { intros e c. eexists _, _. split; [reflexivity|]. split; [reflexivity|]. rewrite P. unfold write_ino. rewrite P, (tw_data _ _ _ _ _ _ _ _ T), (tw_uid _ _ _ _ _ _ _ _ T).
      rewrite fill_pad_zero by apply (tw_zero _ _ _ _ _ _ _ _ T). fold (write_at (x_data x) (Z.to_nat p) c). fold (len c).
      exists (set_pos o (p + len c)), (mkIno KReg (write_at (x_data x) (Z.to_nat p) c) (n_dirty i || negb (o_sync o) && negb (is_nil c))).
      pose proof (tw_store _ _ _ _ (write_at (x_data x) (Z.to_nat p) c) (n_dirty i || negb (o_sync o) && negb (is_nil c)) T1 (lv_kind _ _ _ _ L)) as T2.
      pose proof (tw_move _ _ _ _ (p + len c) T2) as T3. pose proof (len_nonneg c). exact (T3 ltac:(lia)). }
    destruct (hd IoFull (x_io x)) as [|k|e] eqn:E.
    - destruct (Go IoFull) as (w' & x' & <- & <- & H1). cbv beta iota zeta. fold (write_bytes IoFull b). fold (len (write_bytes IoFull b)).
      pose proof (write_bytes_pos IoFull b Nb). pose proof (write_bytes_len IoFull b).
      assert (Z0 : (len (write_bytes IoFull b) =? 0) = false) by (apply Z.eqb_neq; lia). rewrite Z0. cbn [ret]. rewrite ?Z0, andb_false_r.
      destruct (Z.ltb_spec (len (write_bytes IoFull b)) 0); [lia|]. fold (len b). destruct (Z.ltb_spec (len b) (len (write_bytes IoFull b))); [lia|].
      cbn [orb ret]. eexists _, _, _. split; [reflexivity|]. split; [reflexivity|]. exact H1.
    - destruct (Go (IoShort k)) as (w' & x' & <- & <- & H1). cbv beta iota zeta. fold (write_bytes (IoShort k) b). fold (len (write_bytes (IoShort k) b)).
      pose proof (write_bytes_pos (IoShort k) b Nb). pose proof (write_bytes_len (IoShort k) b).
      assert (Z0 : (len (write_bytes (IoShort k) b) =? 0) = false) by (apply Z.eqb_neq; lia). rewrite Z0. cbn [ret]. rewrite ?Z0, andb_false_r.
      destruct (Z.ltb_spec (len (write_bytes (IoShort k) b)) 0); [lia|]. fold (len b). destruct (Z.ltb_spec (len b) (len (write_bytes (IoShort k) b))); [lia|].
      cbn [orb ret]. eexists _, _, _. split; [reflexivity|]. split; [reflexivity|]. exact H1.
    - assert (I : In (IoErr e) (x_io x)) by (destruct (x_io x); [discriminate E|left; exact E]).
      destruct (Z.eqb_spec e EAGAIN) as [->|]; [now destruct (tw_again _ _ _ _ _ _ _ _ T)|]. unfold raise.
      eexists _, _, _. split; [reflexivity|]. split; [reflexivity|]. exists o, i. unfold p. destruct (v_append v) eqn:A.
      + now destruct (tw_noerr _ _ _ _ _ _ _ _ T A e).
      + rewrite x_set_pos_same. exact T1.
  Qed.

  (** What a call on windows leaves alone. *)
  Definition keeps {A} (m : W A) : Prop := forall x, x_junk (snd (m x)) = x_junk x /\ (x_io x = [] -> x_io (snd (m x)) = []).
  Lemma keeps_ret {A} (a : A) : keeps (ret a). Proof. split; auto. Qed.
  Lemma keeps_raise {A} e : keeps (A:=A) (raise e). Proof. split; auto. Qed.
  Lemma keeps_bind {A B} (m : W A) (k : A -> W B) : keeps m -> (forall a, keeps (k a)) -> keeps (bind m k).
  Proof.
    intros Hm Hk x. destruct (Hm x) as (J & I). unfold bind. destruct (m x) as [[a|e] x1]; cbn [snd] in *; [|auto].
    destruct (Hk a x1) as (J1 & I1). split; [congruence|auto].
  Qed.
  Lemma keeps_next : keeps x_next.
  Proof. intros x. rewrite x_next_eq. cbn. split; [reflexivity|]. now intros ->. Qed.
  Lemma keeps_pointer off m : keeps (set_file_pointer off m).
  Proof. intros x. unfold set_file_pointer. destruct (_ <? 0); cbn; auto. Qed.
  Lemma keeps_size : keeps get_file_size. Proof. split; auto. Qed.
  Lemma keeps_end : keeps set_end_of_file.
  Proof. apply keeps_bind; [apply keeps_next|]. intros [| |e]; try apply keeps_raise; split; auto. Qed.
  Lemma keeps_write_file b : keeps (write_file b).
  Proof. apply keeps_bind; [apply keeps_next|]. intros [| |e]; try apply keeps_raise; split; auto. Qed.
  Lemma keeps_closed : keeps (v_check_closed v).
  Proof. unfold v_check_closed. destruct (v_closed v); [apply keeps_raise|apply keeps_ret]. Qed.
  Lemma keeps_seek off wh : keeps (v_inner_seek off wh).
  Proof. unfold v_inner_seek. destruct (_ || _); [apply keeps_pointer|apply keeps_raise]. Qed.
  Ltac kp := repeat (intros; lazymatch goal with
    | |- keeps (bind _ _) => apply keeps_bind
    | |- keeps (ret _) => apply keeps_ret
    | |- keeps (raise _) => apply keeps_raise
    | |- keeps (if ?c then _ else _) => destruct c
    | |- keeps (match ?c with Some _ => _ | None => _ end) => destruct c
    | |- _ => first [apply keeps_pointer | apply keeps_size | apply keeps_end | apply keeps_write_file | apply keeps_closed | apply keeps_seek]
    end).
  Lemma keeps_set_end n : keeps (v_set_end v n).
  Proof.
    unfold v_set_end, v_inner_tell, v_seek. kp.
  Qed.
  Lemma keeps_extend n z : keeps (v_inner_extend v n z). Proof. unfold v_inner_extend. kp. apply keeps_set_end. Qed.
  Lemma keeps_write b : keeps (v_inner_write v b). Proof. unfold v_inner_write, v_inner_tell, v_inner_size. kp. apply keeps_extend. Qed.
  Lemma keeps_padding n : keeps (v_write_padding n v).
  Proof. induction n; cbn [v_write_padding]; [apply keeps_ret|]. apply keeps_bind; [apply keeps_write|auto]. Qed.
  Lemma keeps_fill n c : keeps (v_zero_fill v n c).
  Proof. unfold v_zero_fill, v_inner_tell. kp. apply keeps_padding. apply keeps_write. Qed.
  Lemma v_truncate_keeps s z : keeps (v_truncate v s z).
  Proof.
    unfold v_truncate, v_check_writable, v_tell, v_size, v_inner_tell, v_inner_size, v_inner_reduce. kp.
    all: first [apply keeps_set_end | apply keeps_extend | apply keeps_fill].
  Qed.

  (** truncate(p), when all calls handle all bytes. *)
  Lemma sim_truncate p : q = true -> forall w x, R w x ->
    (exists r w' x', raw_truncate f (Some p) w = (r, w') /\ v_truncate v (Some p) true x = (r, x') /\ R w' x')
    \/ (exists x', v_truncate v (Some p) true x = (Err EAssert, x') /\ len (x_data x) < p /\ (p - len (x_data x)) mod 8192 = 0).
  Proof.
    intros Q w x H. pose proof H as (o & i & T). pose proof (tw_live _ _ _ _ _ _ _ _ T) as L.
    pose proof (lv_pos _ _ _ _ L) as Hp. rewrite (tw_pos _ _ _ _ _ _ _ _ T) in Hp. pose proof (tw_quiet _ _ _ _ _ _ _ _ T Q) as Io.
    destruct (f_writable f) eqn:F.
    2:{ left. exists (Err EUnsupported), w, x. unfold raw_truncate, v_truncate, v_check_writable, bind, v_check_closed.
        rewrite (check_seekable_live _ _ _ _ L), (check_writable_live _ _ _ _ L), F, (tw_open _ _ _ _ _ _ _ _ T). cbn [ret].
        rewrite <- (tw_wr _ _ _ _ _ _ _ _ T), F. auto. }
    assert (Wv : v_writable v = true) by (rewrite <- (tw_wr _ _ _ _ _ _ _ _ T); exact F).
    rewrite (raw_truncate_eq _ _ _ _ _ L F). destruct (Z.ltb_spec p 0).
    { left. exists (Err (EOS EINVAL)), w, x. split; [reflexivity|]. split; [|exact H].
      rewrite v_truncate_eq by (auto; apply (tw_open _ _ _ _ _ _ _ _ T)). destruct (Z.ltb_spec p 0); [reflexivity|lia]. }
    destruct (Z_le_gt_dec p (len (x_data x))) as [Le|Gt].
    2: destruct (Z.eq_dec ((p - len (x_data x)) mod 8192) 0) as [M0|M0].
    2:{ right. destruct (C42_multiple_of_8192 v (Some p) x p (tw_open _ _ _ _ _ _ _ _ T) Wv Io Hp eq_refl ltac:(lia) M0) as (x' & E & _).
        exists x'. split; [exact E|]. split; [lia|exact M0]. }
    all: left; destruct (C42_windows_truncate_partial v (Some p) x p (tw_open _ _ _ _ _ _ _ _ T) Wv Io Hp eq_refl ltac:(lia) ltac:(auto)) as (x' & E & D & P);
      destruct (truncate_body_live f w o i p L ltac:(lia)) as (r & w' & E' & Fr & [(-> & i' & L' & D' & _)|([X|(e & X)] & _)]);
      [|rewrite (tw_owr _ _ _ _ _ _ _ _ T F) in X; discriminate X|rewrite (tw_io _ _ _ _ _ _ _ _ T), Io in X; discriminate X];
      exists (Ok p), w', x'; split; [exact E'|]; split; [exact E|]; exists o, i';
      destruct (v_truncate_keeps (Some p) true x) as (J & I0); rewrite E in J, I0; cbn [snd] in J, I0; specialize (I0 Io);
      (constructor; try apply T; auto;
       [rewrite D'; eapply resized_fun; [apply set_size_resized; lia|rewrite (tw_data _ _ _ _ _ _ _ _ T); exact D]
       |rewrite P; apply (tw_pos _ _ _ _ _ _ _ _ T)
       |rewrite I0; pose proof (fr_io _ _ _ _ Fr) as G; rewrite (tw_io _ _ _ _ _ _ _ _ T), Io in G; destruct (w_io w') as [|e l]; [reflexivity|destruct (G e); now left]
       |intros k; rewrite J; apply (tw_zero _ _ _ _ _ _ _ _ T)
       |rewrite I0; intros []
       |intros _ e; rewrite I0; intros []]).
  Qed.
End Raw.

(** * Buffers *)

Section Buf.
  Variables (u : uid) (q : bool) (f0 : rawio) (v0 : wio).

  Record Rb (b : bstate) (g : vstate) : Prop := mkRb {
    rb_raw : Rr u q (b_raw b) (vb_io g) (b_w b) (vb_x g);
    rb_size : vb_size g = b_size b;
    rb_rbuf : vb_rbuf g = b_rbuf b;
    rb_rpos : vb_rpos g = b_rpos b;
    rb_wbuf : vb_wbuf g = b_wbuf b;
    rb_pos : 0 < b_size b;
    rb_f : b_raw b = f0;
    rb_v : vb_io g = v0 }.
  Definition simat {A} (m1 : B A) (m2 : VB A) (b : bstate) (g : vstate) : Prop :=
    exists r b' g', m1 b = (r, b') /\ m2 g = (r, g') /\ Rb b' g'.
  Definition simB {A} (m1 : B A) (m2 : VB A) : Prop := forall b g, Rb b g -> simat m1 m2 b g.

  Lemma sb_bind_at {A C} (m1 : B A) (m2 : VB A) (k1 : A -> B C) (k2 : A -> VB C) b g :
    simat m1 m2 b g -> (forall a, simB (k1 a) (k2 a)) -> simat (bind m1 k1) (bind m2 k2) b g.
  Proof.
    intros (r & b1 & g1 & E1 & E2 & H1) K. unfold simat, bind. rewrite E1, E2.
    destruct r as [a|e]; [exact (K a b1 g1 H1)|]. exists (Err e), b1, g1. auto.
  Qed.
  Lemma sb_bind {A C} (m1 : B A) (m2 : VB A) (k1 : A -> B C) (k2 : A -> VB C) :
    simB m1 m2 -> (forall a, simB (k1 a) (k2 a)) -> simB (bind m1 k1) (bind m2 k2).
  Proof. intros S K b g H. apply sb_bind_at; auto. Qed.
  Lemma sb_ret {A} (a : A) : simB (ret a) (ret a).
  Proof. intros b g H. exists (Ok a), b, g. auto. Qed.
  Lemma sb_raise {A} e : simB (A:=A) (raise e) (raise e).
  Proof. intros b g H. exists (Err e), b, g. auto. Qed.
  Lemma sb_pair {A} (r : res A) b b' g g' : Rb b' g' -> simat (fun _ => (r, b')) (fun _ => (r, g')) b g.
  Proof. intros H. exists r, b', g'. auto. Qed.
  Lemma sb_raw {A} (m1 : rawio -> M A) (m2 : wio -> W A) :
    (forall f v, simM u q f v (m1 f) (m2 v)) -> simB (on_raw m1) (on_v m2).
  Proof.
    intros S b g [Hr Hs H1 H2 H3 H4 H5 H6]. unfold simat, on_raw, on_v. destruct (S _ _ _ _ Hr) as (r & w' & x' & -> & -> & H').
    exists r, (set_world b w'), (vset_x g x'). split; [reflexivity|]. split; [reflexivity|]. now constructor.
  Qed.
  Lemma rb_set_rbuf b g l n : Rb b g -> Rb (set_rbuf b l n) (vset_rbuf g l n).
  Proof. intros []. now constructor. Qed.
  Lemma rb_set_wbuf b g l : Rb b g -> Rb (set_wbuf b l) (vset_wbuf g l).
  Proof. intros []. now constructor. Qed.
  Lemma rb_unread b g : Rb b g -> vb_unread g = unread b.
  Proof. intros []. unfold vb_unread, unread. now rewrite rb_rbuf0, rb_rpos0. Qed.

  (** The state of the second side, in terms of the first. *)
  Ltac same H := rewrite ?(rb_unread _ _ H), ?(rb_size _ _ H), ?(rb_rbuf _ _ H), ?(rb_rpos _ _ H), ?(rb_wbuf _ _ H).

  Lemma sb_closed : simB b_check_closed vb_check_closed.
  Proof.
    intros b g H. pose proof (rb_raw _ _ H) as (o & i & T). unfold simat, b_check_closed, vb_check_closed.
    rewrite (lv_open _ _ _ _ (tw_live _ _ _ _ _ _ _ _ T)), (tw_open _ _ _ _ _ _ _ _ T). exists (Ok tt), b, g. auto.
  Qed.
  Lemma sb_reset : simB reset_read_buf vb_reset_read_buf.
  Proof. intros b g H. exists (Ok tt), (set_rbuf b [] 0), (vset_rbuf g [] 0). split; [reflexivity|]. split; [reflexivity|]. now apply rb_set_rbuf. Qed.

  Lemma sb_flush_loop : forall k, simB (flush_loop k) (vb_flush_loop k).
  Proof.
    induction k as [|k IH]; cbn [flush_loop vb_flush_loop]; [apply sb_raise|].
    intros b g H. unfold simat. same H. destruct (b_wbuf b) as [|c l] eqn:W.
    - exists (Ok tt), b, g. auto.
    - apply sb_bind; [apply sb_raw; intros f v; now apply sim_write| |exact H]. intros [n|]; [|apply sb_raise].
      destruct (_ || _); [apply sb_raise|]. apply sb_bind; [|auto]. intros b1 g1 H1. unfold simat. same H1.
      eexists _, _, _. split; [reflexivity|]. split; [reflexivity|]. now apply rb_set_wbuf.
  Qed.
  Lemma sb_flush_unlocked : simB flush_unlocked vb_flush_unlocked.
  Proof.
    apply sb_bind; [apply sb_closed|intros _]. intros b g H. unfold simat. same H. now apply sb_flush_loop.
  Qed.
  Lemma sb_flush k : simB (b_flush k) (vb_flush k).
  Proof.
    destruct k; cbn [b_flush vb_flush]; try apply sb_flush_unlocked.
    apply sb_bind; [apply sb_closed|intros _]. apply sb_raw. intros f v. apply sim_flush.
  Qed.
  Lemma sb_writer_write d : simB (writer_write d) (vb_writer_write d).
  Proof.
    apply sb_bind; [apply sb_closed|intros _]. apply sb_bind.
    { intros b g H. unfold simat. same H. destruct (_ <? _); [now apply sb_flush_unlocked|]. exists (Ok tt), b, g. auto. }
    intros _. apply sb_bind.
    { intros b g H. unfold simat. same H. eexists _, _, _. split; [reflexivity|]. split; [reflexivity|]. now apply rb_set_wbuf. }
    intros _ b g H. unfold simat. same H. destruct (_ <? _).
    2:{ eexists _, b, g. auto. }
    destruct (sb_flush_unlocked b g H) as (r & b1 & g1 & -> & -> & H1). same H1.
    destruct r as [[]|e]; [eexists _, b1, g1; auto|]. destruct e; try (eexists _, b1, g1; split; [reflexivity|]; split; [reflexivity|exact H1]).
    destruct (_ <? _); [|eexists _, b1, g1; auto]. eexists _, _, _. split; [reflexivity|]. split; [reflexivity|]. now apply rb_set_wbuf.
  Qed.
  Lemma sb_undo : simB undo_readahead vb_undo_readahead.
  Proof.
    intros b g H. unfold simat, undo_readahead, vb_undo_readahead. same H. apply sb_bind; [|intros _; apply sb_ret|exact H].
    apply sb_raw. intros f v. now apply sim_seek.
  Qed.
  Lemma sb_write k d : simB (b_write k d) (vb_write k d).
  Proof.
    destruct k; cbn [b_write vb_write]; [apply sb_raise|apply sb_writer_write|]. apply sb_bind; [|intros _; apply sb_writer_write].
    intros b g H. unfold simat. same H. destruct (b_rbuf b); [exists (Ok tt), b, g; auto|].
    apply sb_bind; [apply sb_undo|intros _; apply sb_reset|exact H].
  Qed.

  Lemma sb_mixin_seek pos wh : valid_whence wh = true -> simB (mixin_seek pos wh) (vb_mixin_seek pos wh).
  Proof.
    intros V. apply sb_bind; [apply sb_raw; intros f v; now apply sim_seek|]. intros n. destruct (n <? 0); [apply sb_raise|apply sb_ret].
  Qed.
  Lemma sb_mixin_tell : simB mixin_tell vb_mixin_tell.
  Proof. apply sb_bind; [apply sb_raw; intros f v; apply sim_tell|]. intros n. destruct (n <? 0); [apply sb_raise|apply sb_ret]. Qed.
  Lemma sb_seek k pos wh : simB (b_seek k pos wh) (vb_seek k pos wh).
  Proof.
    unfold b_seek, vb_seek. destruct (valid_whence wh) eqn:V; cbn [negb]; [|apply sb_raise]. destruct k.
    - apply sb_bind; [apply sb_closed|intros _]. intros b g H. unfold simat. same H.
      apply sb_bind; [now apply sb_mixin_seek| |exact H]. intros n. apply sb_bind; [apply sb_reset|intros _; apply sb_ret].
    - apply sb_bind; [apply sb_flush_unlocked|intros _; now apply sb_mixin_seek].
    - apply sb_bind; [apply sb_flush_unlocked|intros _]. apply sb_bind.
      { intros b g H. unfold simat. same H. destruct (b_rbuf b); [exists (Ok tt), b, g; auto|now apply sb_undo]. }
      intros _. apply sb_bind; [apply sb_raw; intros f v; now apply sim_seek|]. intros n.
      apply sb_bind; [apply sb_reset|intros _]. destruct (n <? 0); [apply sb_raise|apply sb_ret].
  Qed.
  Lemma sb_reader_tell : simB reader_tell vb_reader_tell.
  Proof. apply sb_bind; [apply sb_mixin_tell|]. intros n b g H. unfold simat. same H. eexists _, b, g. auto. Qed.
  Lemma sb_writer_tell : simB writer_tell vb_writer_tell.
  Proof. apply sb_bind; [apply sb_mixin_tell|]. intros n b g H. unfold simat. same H. eexists _, b, g. auto. Qed.
  Lemma sb_tell k : simB (b_tell k) (vb_tell k).
  Proof.
    destruct k; [apply sb_reader_tell|apply sb_writer_tell|]. intros b g H. unfold simat, b_tell, vb_tell. same H.
    destruct (b_wbuf b); [now apply sb_reader_tell|now apply sb_writer_tell].
  Qed.

  Lemma sb_fuel : simB read_fuel vb_read_fuel.
  Proof. apply sb_bind; [apply sb_raw; intros f v; apply sim_fuel|]. intros n. apply sb_ret. Qed.
  Lemma sb_fill_loop : forall k wanted n out, simB (fill_loop k wanted n out) (vb_fill_loop k wanted n out).
  Proof.
    induction k as [|k IH]; intros wanted n out; cbn [fill_loop vb_fill_loop]; [apply sb_raise|].
    destruct (_ <? n); [|apply sb_ret]. apply sb_bind; [apply sb_raw; intros f v; apply sim_read|].
    intros [[|c l]|]; [apply sb_ret|apply IH|apply sb_ret].
  Qed.
  Lemma sb_read_unlocked n : simB (read_unlocked n) (vb_read_unlocked n).
  Proof.
    intros b g H. unfold simat, read_unlocked, vb_read_unlocked. same H. cbv zeta. set (U := unread b). set (S := b_size b).
    destruct (match n with None => true | Some k => k =? -1 end).
    - apply sb_bind; [apply sb_reset| |exact H]. intros _. apply sb_bind; [apply sb_raw; intros f v; apply sim_readall|]. intros [c|]; apply sb_ret.
    - destruct (_ <=? _).
      + eexists _, _, _. split; [reflexivity|]. split; [reflexivity|]. now apply rb_set_rbuf.
      + apply sb_bind; [apply sb_fuel| |exact H]. intros fuel. apply sb_bind; [apply sb_fill_loop|]. intros [out nodata].
        apply sb_bind; [|intros _; apply sb_ret]. intros b1 g1 H1. eexists _, _, _. split; [reflexivity|]. split; [reflexivity|]. now apply rb_set_rbuf.
  Qed.
  Lemma sb_reader_read n : simB (reader_read n) (vb_reader_read n).
  Proof. unfold reader_read, vb_reader_read. destruct (match n with Some k => k <? -1 | None => false end); [apply sb_raise|apply sb_read_unlocked]. Qed.
  Lemma sb_read k n : simB (b_read k n) (vb_read k n).
  Proof.
    destruct k; [apply sb_reader_read|apply sb_raise|]. apply sb_bind; [apply sb_flush_unlocked|intros _; apply sb_reader_read].
  Qed.
  Lemma sb_peek_unlocked n : simB (peek_unlocked n) (vb_peek_unlocked n).
  Proof.
    apply sb_bind.
    - intros b g H. unfold simat. cbv beta zeta. same H. destruct (_ || _); [|exists (Ok tt), b, g; auto].
      apply sb_bind; [apply sb_raw; intros f v; apply sim_read| |exact H]. intros [[|c l]|]; try apply sb_ret.
      intros b1 g1 H1. unfold simat. same H1. eexists _, _, _. split; [reflexivity|]. split; [reflexivity|]. now apply rb_set_rbuf.
    - intros _ b g H. unfold simat. same H. eexists _, b, g. auto.
  Qed.
  Lemma sb_reader_peek n : simB (reader_peek n) (vb_reader_peek n).
  Proof. apply sb_bind; [apply sb_closed|intros _; apply sb_peek_unlocked]. Qed.
  Lemma sb_peek k n : simB (b_peek k n) (vb_peek k n).
  Proof. destruct k; [apply sb_reader_peek|apply sb_raise|]. apply sb_bind; [apply sb_flush_unlocked|intros _; apply sb_reader_peek]. Qed.
  Lemma sb_reader_read1 n : simB (reader_read1 n) (vb_reader_read1 n).
  Proof.
    apply sb_bind; [apply sb_closed|intros _]. intros b g H. unfold simat. cbv beta zeta. same H.
    destruct (_ =? 0); [eexists _, b, g; auto|]. apply sb_bind; [apply sb_peek_unlocked| |exact H]. intros _ b1 g1 H1. unfold simat. same H1. now apply sb_read_unlocked.
  Qed.
  Lemma sb_read1 k n : simB (b_read1 k n) (vb_read1 k n).
  Proof. destruct k; [apply sb_reader_read1|apply sb_raise|]. apply sb_bind; [apply sb_flush_unlocked|intros _; apply sb_reader_read1]. Qed.

  Lemma sb_readinto_loop : forall k n r1 out, simB (readinto_loop k n r1 out) (vb_readinto_loop k n r1 out).
  Proof.
    induction k as [|k IH]; intros n r1 out; cbn [readinto_loop vb_readinto_loop]; [apply sb_raise|].
    destruct (_ <? n); [|apply sb_ret]. intros b g H. unfold simat. cbv beta zeta. same H.
    destruct (n - _ <? _); [eexists _, b, g; auto|]. set (out1 := out ++ _). set (m := (b_rpos b + _)%nat).
    assert (H1 : Rb (set_rbuf b (b_rbuf b) m) (vset_rbuf g (b_rbuf b) m)) by now apply rb_set_rbuf.
    destruct (negb _ && _); [eexists _, _, _; split; [reflexivity|]; split; [reflexivity|]; exact H1|].
    assert (Again : forall o, simB (if r1 && negb (is_nil o) then ret o else readinto_loop k n r1 o) (if r1 && negb (is_nil o) then ret o else vb_readinto_loop k n r1 o)).
    { intros o. destruct (r1 && _); [apply sb_ret|apply IH]. }
    destruct (Z.ltb_spec (b_size b) (n - Z.of_nat (length out1))).
    - pose proof (rb_pos _ _ H). apply sb_bind; [apply sb_raw; intros f v; apply sim_readinto; lia| |exact H1]. intros [|c l]; [apply sb_ret|apply Again].
    - destruct (negb (r1 && _)); [|apply Again, H1]. apply sb_bind; [apply sb_peek_unlocked| |exact H1]. intros [|c l]; [apply sb_ret|apply Again].
  Qed.
  Lemma sb_reader_readinto n r1 : simB (reader_readinto n r1) (vb_reader_readinto n r1).
  Proof.
    apply sb_bind; [apply sb_closed|intros _]. destruct (n =? 0); [apply sb_ret|]. apply sb_bind; [apply sb_fuel|]. intros k. apply sb_readinto_loop.
  Qed.
  Lemma sb_readinto k n r1 : simB (b_readinto k n r1) (vb_readinto k n r1).
  Proof. destruct k; [apply sb_reader_readinto|apply sb_raise|]. apply sb_bind; [apply sb_flush_unlocked|intros _; apply sb_reader_readinto]. Qed.
  Lemma sb_readline_loop : forall fu k size res, simB (readline_loop fu k size res) (vb_readline_loop fu k size res).
  Proof.
    induction fu as [|fu IH]; intros k size res; cbn [readline_loop vb_readline_loop]; [apply sb_raise|].
    destruct (_ || _); [|apply sb_ret]. apply sb_bind; [apply sb_peek|]. intros ahead. apply sb_bind; [apply sb_read|].
    intros [[|c l]|]; try apply sb_ret. destruct (_ =? 10); [apply sb_ret|apply IH].
  Qed.
  Lemma sb_readline k size : simB (b_readline k size) (vb_readline k size).
  Proof.
    assert (G : simB (fuel <- read_fuel ;; fun b => readline_loop (fuel + length (unread b) + length (b_wbuf b) + 1)%nat k size [] b)
      (fuel <- vb_read_fuel ;; fun b => vb_readline_loop (fuel + length (vb_unread b) + length (vb_wbuf b) + 1)%nat k size [] b)).
    { apply sb_bind; [apply sb_fuel|]. intros n b g H. unfold simat. same H. now apply sb_readline_loop. }
    destruct k; [exact G| |exact G]. unfold b_readline, vb_readline. destruct (size =? 0); [apply sb_ret|apply sb_raise].
  Qed.
  Lemma sb_reset_buffers k : simB (reset_buffers k) (vb_reset_buffers k).
  Proof. apply sb_bind; [apply sb_seek|intros _; apply sb_ret]. Qed.
  Lemma sb_fsize k : simB (b_fsize k) (vb_fsize k).
  Proof. apply sb_bind; [apply sb_flush|intros _]. apply sb_raw. intros f v. apply sim_size. Qed.

  (** truncate: the same, unless windows fails an assertion. *)
  Definition simT {A} (m1 : B A) (m2 : VB A) : Prop := forall b g, Rb b g -> simat m1 m2 b g \/ exists g', m2 g = (Err EAssert, g').
  Lemma st_bind {A C} (m1 : B A) (m2 : VB A) (k1 : A -> B C) (k2 : A -> VB C) :
    simB m1 m2 -> (forall a, simT (k1 a) (k2 a)) -> simT (bind m1 k1) (bind m2 k2).
  Proof.
    intros S K b g H. destruct (S b g H) as (r & b1 & g1 & E1 & E2 & H1). unfold simat, bind. rewrite E1, E2.
    destruct r as [a|e]; [exact (K a b1 g1 H1)|]. left. exists (Err e), b1, g1. auto.
  Qed.
  Lemma st_writer_truncate pos : q = true -> simT (writer_truncate pos) (vb_writer_truncate pos).
  Proof.
    intros Q. apply st_bind; [apply sb_flush_unlocked|intros _]. apply st_bind.
    { destruct pos as [p|]; [apply sb_ret|]. apply sb_raw. intros f v. apply sim_tell. }
    intros p b g [Hr Hs H1 H2 H3 H4 H5 H6]. unfold simat, on_raw, on_v.
    destruct (sim_truncate u q _ _ p Q _ _ Hr) as [(r & w' & x' & -> & -> & H')|(x' & -> & _)]; [left|right].
    - exists r, (set_world b w'), (vset_x g x'). split; [reflexivity|]. split; [reflexivity|]. now constructor.
    - now exists (vset_x g x').
  Qed.
  Lemma st_truncate k pos : q = true -> simT (b_truncate k pos) (vb_truncate k pos).
  Proof.
    intros Q. destruct k; cbn [b_truncate vb_truncate].
    - intros b g H. left. apply sb_bind; [apply sb_closed|intros _; apply sb_raise|exact H].
    - now apply st_writer_truncate.
    - apply st_bind; [destruct pos; [apply sb_ret|apply sb_tell]|]. intros p. now apply st_writer_truncate.
  Qed.
End Buf.
