(** Final theorems about raw streams: C23-C27. *)
From Coq Require Import ZArith Ascii String List Bool Lia.
From Verif Require Import M_Base M_Modes M_Registry M_Kernel M_World M_Raw S_Bytes S_Raw S_Demo
  P_Bytes P_Raw.
Import ListNotations.
Open Scope Z_scope.

(** * C23: raw I/O refines a byte array.
    For every sequence of calls on a stream open on a regular file, and every
    schedule of short counts and failures, what the program sees is a run of the
    byte-array machine, the file ends up with that machine's array and the descriptor
    at its cursor, and nothing else in the world changes. *)
Theorem C23_raw_refines_byte_array : forall f ops w o i outs w',
  live f w o i -> Forall wf_op ops -> ~ In (IoErr EPIPE) (w_io w) ->
  run_rops f ops w = (outs, w') ->
  exists o' i', live f w' o' i' /\ o_uid o' = o_uid o /\ frame (fd_of f) (o_uid o) w w'
    /\ aruns True (mkAcc (f_readable f) (f_writable f) (o_app o))
             (n_data i, o_pos o) ops outs (n_data i', o_pos o').
Proof.
  intros f ops w o i outs w' L W P H.
  destruct (rops_refine True f ops w o i L W P (or_introl I) outs w' H)
    as (o' & i' & A & B & _ & _ & _ & C & D). eauto 10.
Qed.

(** The same without failures: if no system call fails, no call of the program
    reports a failure other than those of the byte-array machine itself. *)
Theorem C23_raw_refines_byte_array_no_faults : forall f ops w o i outs w',
  live f w o i -> Forall wf_op ops -> (forall e, ~ In (IoErr e) (w_io w)) ->
  (f_readable f = true -> o_rd o = true) -> (f_writable f = true -> o_wr o = true) ->
  run_rops f ops w = (outs, w') ->
  exists o' i', live f w' o' i' /\ o_uid o' = o_uid o /\ frame (fd_of f) (o_uid o) w w'
    /\ aruns False (mkAcc (f_readable f) (f_writable f) (o_app o))
             (n_data i, o_pos o) ops outs (n_data i', o_pos o').
Proof.
  intros f ops w o i outs w' L W P R1 R2 H.
  destruct (rops_refine False f ops w o i L W (P EPIPE) (or_intror (conj P (conj R1 R2))) outs w' H)
    as (o' & i' & A & B & _ & _ & _ & C & D). eauto 10.
Qed.

Example C23_example :
  let '(f, w) := demo_open "f" true true false (demo [1;2;3] [IoFull; IoShort 1; IoShort 2] [] []) in
  let '(outs, w') := run_rops f [RRead 2; RSeek 5 0; RWrite [7;8;9]; RTell; RSize; RSeek 0 0; RRead (-1)] w in
  (outs, content w' (1, 10))
  = ([OBytes [1]; OInt 5; OInt 2; OInt 7; OInt 7; OInt 0; OBytes [1;2;3;0;0;7;8]], [1;2;3;0;0;7;8]).
Proof. vm_compute. reflexivity. Qed.

(** * C24: truncate *)
Theorem C24_truncate : forall f w o i s n,
  live f w o i -> f_writable f = true -> o_wr o = true ->
  n = (match s with None => o_pos o | Some x => x end) -> 0 <= n ->
  (forall e, hd IoFull (w_io w) <> IoErr e) ->
  exists w' o' i', raw_truncate f s w = (Ok n, w') /\ live f w' o' i' /\ o_uid o' = o_uid o
    /\ resized (n_data i) n (n_data i') /\ o_pos o' = o_pos o /\ frame (fd_of f) (o_uid o) w w'.
Proof.
  intros f w o i s n L Wf Wo En Hn Io.
  rewrite (raw_truncate_eq _ _ _ _ s L Wf).
  assert (Go : forall w1, live f w1 o i -> frame (fd_of f) (o_uid o) w w1 -> w_io w1 = w_io w ->
     exists w' o' i', truncate_body f n w1 = (Ok n, w') /\ live f w' o' i' /\ o_uid o' = o_uid o
    /\ resized (n_data i) n (n_data i') /\ o_pos o' = o_pos o /\ frame (fd_of f) (o_uid o) w w').
  { intros w1 L1 F1 E1. destruct (truncate_body_live f w1 o i n L1 Hn) as (r & w2 & -> & F2 & C).
    destruct C as [(-> & i' & L' & D' & _) | ([X | (e & X)] & _)]; [|congruence|rewrite E1 in X; now apply Io in X].
    exists w2, o, i'. rewrite D'. split; [auto|]. split; [auto|]. split; [auto|].
    split; [now apply set_size_resized|]. split; [auto|]. eapply frame_trans; eauto. }
  destruct s as [x|]; subst n.
  - destruct (Z.ltb_spec x 0); [lia|]. apply Go; auto with frame.
  - apply Go; auto with frame. now apply live_refd.
Qed.

(** A negative size raises and changes nothing. *)
Theorem C24_truncate_negative : forall f w o i n,
  live f w o i -> f_writable f = true -> n < 0 ->
  raw_truncate f (Some n) w = (Err (EOS EINVAL), w).
Proof.
  intros f w o i n L Wf Hn. rewrite (raw_truncate_eq _ _ _ _ (Some n) L Wf).
  destruct (Z.ltb_spec n 0); [auto|lia].
Qed.

(** If the system refuses, the error is reported and the file is unchanged;
    in particular the fallback that fills with zeros is never reached. *)
Theorem C24_truncate_failure : forall f w o i s r w',
  live f w o i -> raw_truncate f s w = (r, w') -> (exists n, r = Ok n) \/
  ((exists e, r = Err (EOS e)) \/ r = Err EUnsupported) /\ live f w' o i.
Proof.
  intros f w o i s r w' L H.
  destruct (f_writable f) eqn:Wf.
  - rewrite (raw_truncate_eq _ _ _ _ s L Wf) in H.
    assert (Go : forall n w1, 0 <= n -> live f w1 o i -> truncate_body f n w1 = (r, w') ->
      (exists n, r = Ok n) \/ ((exists e, r = Err (EOS e)) \/ r = Err EUnsupported) /\ live f w' o i).
    { intros n w1 Hn L1 E. destruct (truncate_body_live f w1 o i n L1 Hn) as (r1 & w2 & E2 & _ & C).
      rewrite E in E2; inversion E2; subst. destruct C as [(-> & _) | (_ & X & Y)]; eauto. }
    destruct s as [x|].
    + destruct (Z.ltb_spec x 0); [inversion H; subst; right; eauto|]. eapply Go; eauto.
    + exact (Go _ _ (lv_pos _ _ _ _ L) (live_refd _ _ _ _ L) H).
  - unfold raw_truncate, bind in H. rewrite (check_seekable_live _ _ _ _ L), (check_writable_live _ _ _ _ L), Wf in H.
    inversion H; subst. right; auto.
Qed.

Example C24_example :
  let '(f, w) := demo_open "f" true true false (demo [1;2;3] [] [] []) in
  let '(r1, w1) := raw_truncate f (Some 5) w in
  let '(r2, w2) := raw_truncate f (Some 1) w1 in
  (r1, content w1 (1, 10), r2, content w2 (1, 10)) = (Ok 5, [1;2;3;0;0], Ok 1, [1]).
Proof. vm_compute. reflexivity. Qed.

(** * C25: reading everything *)
Theorem C25_readall : forall f w o i n,
  live f w o i -> f_readable f = true -> o_rd o = true -> (forall e, ~ In (IoErr e) (w_io w)) ->
  (n = None \/ exists k, n = Some k /\ k < 0) ->
  exists d w' o', raw_read f n w = (Ok (Some d), w') /\ rest_from (n_data i) (o_pos o) d
    /\ live f w' o' i /\ o_uid o' = o_uid o /\ o_pos o' = Z.max (o_pos o) (len (n_data i))
    /\ frame (fd_of f) (o_uid o) w w'.
Proof.
  intros f w o i n L R Ro Io Hn.
  destruct (raw_readall_ok False f w o i L (Io EPIPE)) as (r & w1 & o1 & E1 & L1 & U1 & _ & _ & _ & _ & F1 & C1); auto.
  { right. auto. }
  destruct C1 as [(-> & P1) | ([] & _)].
  assert (E : raw_read f n w = raw_readall f w).
  { unfold raw_read, bind. rewrite (check_closed_live _ _ _ _ L), (check_readable_live _ _ _ _ L), R.
    destruct Hn as [-> | (k & -> & Hk)]; auto. destruct (Z.ltb_spec k 0); auto; lia. }
  rewrite E, E1.
  eexists _, w1, o1. split; [reflexivity|]. split; [apply rest_from_skipn, (lv_pos _ _ _ _ L)|].
  split; [auto|]. split; [auto|]. split; [|auto].
  rewrite P1. unfold remaining. rewrite skipn_length. pose proof (lv_pos _ _ _ _ L). unfold len. lia.
Qed.

Example C25_example :
  let '(f, w) := demo_open "f" true false false (demo [1;2;3;4;5] [IoFull; IoShort 1; IoShort 2; IoShort 1] [] []) in
  let '(_, w1) := raw_seek f 1 0 w in
  fst (raw_read f None w1) = Ok (Some [2;3;4;5]).
Proof. vm_compute. reflexivity. Qed.

(** * C26: append-only writes *)

(** One raw write through a descriptor opened with O_APPEND, whatever its
    position: what was accepted comes after the current end, nothing else changes. *)
Theorem C26_append_write : forall f b w o i r w',
  live f w o i -> o_app o = true -> raw_write f b w = (r, w') ->
  exists o' i', live f w' o' i' /\ o_uid o' = o_uid o /\ o_app o' = true
    /\ frame (fd_of f) (o_uid o) w w'
    /\ n_data i' = n_data i ++ (match r with Ok (Some k) => firstn (Z.to_nat k) b | _ => [] end)
    /\ (forall k, r = Ok (Some k) -> 0 <= k <= len b /\ (b <> [] -> 0 < k)).
Proof.
  intros f b w o i r w' L A H.
  assert (Nop : forall w'', live f w'' o i -> frame (fd_of f) (o_uid o) w w'' -> (forall k, r <> Ok (Some k)) -> w'' = w' ->
    exists o' i', live f w' o' i' /\ o_uid o' = o_uid o /\ o_app o' = true
    /\ frame (fd_of f) (o_uid o) w w'
    /\ n_data i' = n_data i ++ (match r with Ok (Some k) => firstn (Z.to_nat k) b | _ => [] end)
    /\ (forall k, r = Ok (Some k) -> 0 <= k <= len b /\ (b <> [] -> 0 < k))).
  { intros w'' L' F' N <-. exists o, i. split; [auto|]. split; [auto|]. split; [auto|]. split; [auto|].
    split; [|intros k E; now apply N in E].
    destruct r as [[k|]|]; [now destruct (N k)| |]; now rewrite app_nil_r. }
  destruct (f_writable f) eqn:Wf.
  - destruct (o_wr o) eqn:Wo.
    + rewrite (raw_write_live _ _ _ _ b L Wf Wo) in H.
      assert (Good : forall e, (Ok (Some (len (write_bytes e b))),
          upd_fd (upd_ino (set_io w (tl (w_io w))) (o_uid o) (write_ino o i (write_bytes e b)))
                 (fd_of f) (Some (set_pos o (write_pos o i + len (write_bytes e b))))) = (r, w') ->
        exists o' i', live f w' o' i' /\ o_uid o' = o_uid o /\ o_app o' = true
    /\ frame (fd_of f) (o_uid o) w w'
    /\ n_data i' = n_data i ++ (match r with Ok (Some k) => firstn (Z.to_nat k) b | _ => [] end)
    /\ (forall k, r = Ok (Some k) -> 0 <= k <= len b /\ (b <> [] -> 0 < k))).
      { intros e E. inversion E; subst; clear E.
        pose proof (write_pos_nonneg _ _ _ _ L) as P0. pose proof (len_nonneg (write_bytes e b)) as P1.
        exists (set_pos o (write_pos o i + len (write_bytes e b))), (write_ino o i (write_bytes e b)).
        split; [|split; [auto|split; [auto|split; [|split]]]].
        - apply live_pos; [|lia]. apply (live_data f _ o i); [now apply live_io|reflexivity].
        - eapply frame_trans; [apply frame_io|]. eapply frame_trans; [apply frame_ino|apply frame_fd].
        - rewrite <- write_bytes_prefix. cbn [write_ino n_data]. unfold write_pos. rewrite A.
          unfold len. rewrite Nat2Z.id. apply write_at_end.
        - intros k E. inversion E; subst. split; [split; [lia|apply write_bytes_len]|].
          intros Hb. now apply write_bytes_pos. }
      destruct (hd IoFull (w_io w)) as [|k|x]; [exact (Good IoFull H)|exact (Good (IoShort k) H)|].
      inversion H; subst. eapply Nop; [apply live_io; eauto|apply frame_io| |reflexivity].
      intros k. destruct (x =? EAGAIN); discriminate.
    + unfold raw_write, inner_write, bind in H.
      rewrite (check_closed_live _ _ _ _ L), (check_writable_live _ _ _ _ L), Wf in H.
      rewrite (sys_write_norights _ _ _ _ _ L Wo) in H. cbn in H. inversion H; subst.
      eapply Nop; eauto with frame. discriminate.
  - unfold raw_write, bind in H.
    rewrite (check_closed_live _ _ _ _ L), (check_writable_live _ _ _ _ L), Wf in H. inversion H; subst.
    eapply Nop; eauto with frame. discriminate.
Qed.

(** Executions in which any number of append streams write to file [u], and
    between two writes anything at all happens to the world (other streams move, open, close,
    lock; other processes run) as long as others only append to [u]:
    the list collects what was accepted, in order. *)
Inductive append_run (u : uid) : world -> list (list Z) -> world -> Prop :=
| ap_nil : forall w, append_run u w [] w
| ap_write : forall w f b o i r w1 acc w2,
    live f w o i -> o_uid o = u -> o_app o = true -> raw_write f b w = (r, w1) ->
    append_run u w1 acc w2 ->
    append_run u w ((match r with Ok (Some k) => firstn (Z.to_nat k) b | _ => [] end) :: acc) w2
| ap_other : forall w w1 x acc w2,
    content w1 u = content w u ++ x -> append_run u w1 acc w2 -> append_run u w (x :: acc) w2.

Theorem C26_append_concatenates : forall u w acc w',
  append_run u w acc w' -> content w' u = content w u ++ concat acc.
Proof.
  intros u w acc w' H. induction H.
  - now rewrite app_nil_r.
  - destruct (C26_append_write f b w o i r w1 H H1 H2) as (o' & i' & L' & U' & _ & _ & D & _).
    rewrite IHappend_run. cbn [concat]. rewrite app_assoc. f_equal.
    unfold content. rewrite <- H0 at 2. rewrite (lv_ino _ _ _ _ H).
    rewrite <- H0, <- U'. rewrite (lv_ino _ _ _ _ L'). exact D.
  - rewrite IHappend_run, H. cbn [concat]. now rewrite app_assoc.
Qed.

Example C26_example :
  let '(f, w) := demo_open "f" false true true (demo [1;2;3] [] [] []) in
  let '(g, w1) := demo_open "f" false true true w in
  let w2 := snd (raw_write f [4] w1) in
  let w3 := snd (raw_write g [5;6] w2) in
  let w4 := snd (raw_seek f 0 0 w3) in
  let w5 := snd (raw_write f [7] w4) in
  content w5 (1, 10) = [1;2;3;4;5;6;7].
Proof. vm_compute. reflexivity. Qed.

(** * C27: closed and access checks have no side effects *)

Theorem C27_closed : forall f w, f_closed f = true ->
  (forall op, run_rop f op w = (OErr EValue, w))
  /\ (forall n, raw_read f n w = (Err EValue, w))
  /\ (forall h m ff, raw_sync h f m ff w = (Err EValue, w))
  /\ (forall t l o wh s, raw_lock_file f t l o wh s w = (Err EValue, w))
  /\ (forall l o wh, raw_unlock_file f l o wh w = (Err EValue, w)).
Proof.
  intros f w C.
  assert (CC : check_closed f w = (Err EValue, w)) by (unfold check_closed; now rewrite C).
  assert (CS : check_seekable f w = (Err EValue, w)) by (unfold check_seekable, bind; now rewrite CC).
  split; [|split; [|split; [|split]]]; intros.
  - destruct op; cbn [run_rop]; unfold raw_read, raw_readinto, raw_write, raw_seek, raw_tell, raw_size, raw_flush,
      raw_truncate, bind; rewrite ?CC, ?CS; reflexivity.
  - unfold raw_read, bind. now rewrite CC.
  - unfold raw_sync, bind. now rewrite CC.
  - unfold raw_lock_file, bind. now rewrite CS.
  - unfold raw_unlock_file, bind. now rewrite CS.
Qed.

Theorem C27_access : forall f w, f_closed f = false ->
  (f_readable f = false -> forall op, (exists n, op = RRead n \/ op = RReadInto n) ->
     run_rop f op w = (OErr EUnsupported, w))
  /\ (f_writable f = false -> forall b, run_rop f (RWrite b) w = (OErr EUnsupported, w))
  /\ (f_writable f = false -> forall s, run_rop f (RTruncate s) w = (OErr EUnsupported, w))
  /\ (f_seekable f = false -> forall s, run_rop f (RTruncate s) w = (OErr EUnsupported, w)).
Proof.
  intros f w C.
  assert (CC : check_closed f w = (Ok tt, w)) by (unfold check_closed; now rewrite C).
  split; [|split; [|split]]; intros H.
  - intros op (n & [-> | ->]); cbn [run_rop]; unfold raw_read, raw_readinto, check_readable, bind;
      rewrite !CC, H; reflexivity.
  - intros b; cbn [run_rop]; unfold raw_write, check_writable, bind; rewrite !CC, H; reflexivity.
  - intros s; cbn [run_rop]; unfold raw_truncate, check_writable, check_seekable, bind; rewrite !CC.
    destruct (f_seekable f); [|reflexivity]. unfold ret. rewrite ?CC, H. reflexivity.
  - intros s; cbn [run_rop]; unfold raw_truncate, check_writable, check_seekable, bind; rewrite !CC, H. reflexivity.
Qed.

(** close() is idempotent: once closed, closing again does nothing. *)
Theorem C27_close_idempotent : forall f w, raw_close (set_closed f) w = (Ok tt, w).
Proof. reflexivity. Qed.

Example C27_example :
  let '(f, w) := demo_open "f" true false false (demo [1;2;3] [] [] []) in
  (fst (run_rop f (RWrite [9]) w), fst (run_rop f (RRead 1) w),
   fst (run_rop (set_closed f) (RRead 1) (snd (raw_close f w))))
  = (OErr EUnsupported, OBytes [1], OErr EValue).
Proof. vm_compute. reflexivity. Qed.

Print Assumptions C23_raw_refines_byte_array.
Print Assumptions C23_raw_refines_byte_array_no_faults.
Print Assumptions C24_truncate.
Print Assumptions C24_truncate_negative.
Print Assumptions C24_truncate_failure.
Print Assumptions C25_readall.
Print Assumptions C26_append_write.
Print Assumptions C26_append_concatenates.
Print Assumptions C27_closed.
Print Assumptions C27_access.
Print Assumptions C27_close_idempotent.
