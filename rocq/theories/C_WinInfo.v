(** Final theorems of C89: unique_id() and times() on windows. *)
From Coq Require Import ZArith Ascii String List Bool Lia.
From Verif Require Import M_Base M_Modes M_World M_Util M_WinHandles M_WinInfo S_WinHandles S_WinInfo P_Util C_Util C_WinHandles.
Import ListNotations.
Open Scope Z_scope.
Open Scope list_scope.

Lemma same_tables_refl s : same_tables s s.
Proof. constructor; reflexivity. Qed.
Lemma same_tables_trans a b c : same_tables a b -> same_tables b c -> same_tables a c.
Proof. intros [] []. constructor; congruence. Qed.
Lemma ws_next_same s e s1 : ws_next s = (e, s1) -> same_tables s s1 /\ exists x, e = Ok x.
Proof. unfold ws_next. intros E. destruct (ws_io s); injection E as <- <-; (split; [constructor; reflexivity|eauto]). Qed.

(** What a call of GetFileInformationByHandle does. *)
Lemma get_information_cases info be h s r s1 : get_information info be h s = (r, s1) ->
  (exists e, r = Err e /\ (be = Ctypes -> same_tables s s1) /\ used (ws_crt s) <= used (ws_crt s1) /\ ws_handles s1 = ws_handles s
     /\ List.length (ws_crt s1) = List.length (ws_crt s))
  \/ (exists o, r = Ok (info (ho_target o)) /\ ws_handles s h = Some o /\ ws_handles s1 = ws_handles s
       /\ List.length (ws_crt s1) = List.length (ws_crt s)
       /\ match be with Ctypes => same_tables s s1 | Pywin32 => used (ws_crt s1) = 1 + used (ws_crt s) end).
Proof.
  unfold get_information, bind. destruct (ws_next s) as [e s0] eqn:E0. destruct (ws_next_same _ _ _ E0) as [Sm (x & ->)].
  pose proof (st_crt _ _ Sm) as Ec. pose proof (st_handles _ _ Sm) as Eh.
  assert (Hard : forall e0, (Err (A:=hinfo) e0, s0) = (r, s1) ->
    (exists e, r = Err e /\ (be = Ctypes -> same_tables s s1) /\ used (ws_crt s) <= used (ws_crt s1) /\ ws_handles s1 = ws_handles s
       /\ List.length (ws_crt s1) = List.length (ws_crt s))).
  { intros e0 [= <- <-]. exists e0. split; [reflexivity|]. split; [auto|]. rewrite Ec. split; [lia|]. split; [exact Eh|reflexivity]. }
  assert (Main : match ws_handles s0 h with
        | None => (Err (EOS EBADF), s0)
        | Some o =>
            match be with
            | Ctypes => (Ok (info (ho_target o)), s0)
            | Pywin32 =>
                match open_osfhandle h s0 with
                | (Err e, s1) => (Err e, s1)
                | (Ok d, s1) => match crt_is_regular d s1 with
                                | (Err e, s2) => (Err e, s2)
                                | (Ok _, s2) => (Ok (info (ho_target o)), s2)
                                end
                end
            end
        end = (r, s1) -> (exists e, r = Err e /\ (be = Ctypes -> same_tables s s1) /\ used (ws_crt s) <= used (ws_crt s1) /\ ws_handles s1 = ws_handles s
     /\ List.length (ws_crt s1) = List.length (ws_crt s))
  \/ (exists o, r = Ok (info (ho_target o)) /\ ws_handles s h = Some o /\ ws_handles s1 = ws_handles s
       /\ List.length (ws_crt s1) = List.length (ws_crt s)
       /\ match be with Ctypes => same_tables s s1 | Pywin32 => used (ws_crt s1) = 1 + used (ws_crt s) end)).
  { rewrite Eh. destruct (ws_handles s h) as [o|] eqn:Ho; [|intros E; left; eauto].
    destruct be.
    - intros [= <- <-]. right. exists o. rewrite Ec, Eh. auto.
    - unfold open_osfhandle. destruct (first_free (ws_crt s0)) as [d|] eqn:Ed; [|intros E; left; eauto].
      set (s2 := ws_set_crt s0 (nth_update (ws_crt s0) d (Some h))).
      pose proof (first_free_spec _ _ Ed) as Fd.
      assert (Hc : crt_handle s2 (Z.of_nat d) = Some h).
      { rewrite crt_at by lia. rewrite Nat2Z.id. cbn [s2 ws_set_crt ws_crt]. rewrite upd_same by congruence. reflexivity. }
      unfold crt_is_regular. rewrite Hc. cbn [s2 ws_set_crt ws_handles]. rewrite Eh, Ho. intros [= <- <-]. right. exists o.
      cbn [s2 ws_set_crt ws_handles ws_crt]. rewrite upd_len, (used_upd _ _ _ Fd), Eh, Ec. auto. }
  destruct x as [|n|n]; intros E; try (apply Main, E). left. eauto.
Qed.

Section Queries.
  Variable info : wtarget -> hinfo.

  (** With the ctypes backend questions change nothing. *)
  Lemma ctypes_query q z s o z1 s1 : run_query info Ctypes q z s = (o, z1, s1) -> same_tables s s1 /\ i_z z1 = i_z z.
  Proof.
    destruct q; cbn [run_query].
    - unfold win_unique_id. destruct (z_closed (i_z z)); [intros [= <- <- <-]; auto using same_tables_refl|].
      destruct (i_uid z); [intros [= <- <- <-]; auto using same_tables_refl|].
      destruct (z_handle (i_z z)) as [h|]; [|intros [= <- <- <-]; auto using same_tables_refl].
      unfold inner_unique_id, bind. destruct (get_information info Ctypes h s) as [r s2] eqn:G.
      destruct (get_information_cases _ _ _ _ _ _ G) as [(e & -> & Sm & _)|(ob & -> & _ & _ & _ & Sm)].
      + intros [= <- <- <-]. auto.
      + cbv zeta. destruct ((hi_serial (info (ho_target ob)) <=? 0) || _); intros [= <- <- <-]; auto.
    - unfold win_times. destruct (z_closed (i_z z)); [intros [= <- <- <-]; auto using same_tables_refl|].
      destruct (z_handle (i_z z)) as [h|]; [|intros [= <- <- <-]; auto using same_tables_refl].
      unfold inner_times, bind. destruct (get_information info Ctypes h s) as [r s2] eqn:G.
      destruct (get_information_cases _ _ _ _ _ _ G) as [(e & -> & Sm & _)|(ob & -> & _ & _ & _ & Sm)]; intros [= <- <- <-]; auto.
  Qed.
  Theorem C89_ctypes_leaves_no_trace : forall qs z s outs z1 s1,
    run_queries info Ctypes qs z s = (outs, z1, s1) -> same_tables s s1.
  Proof.
    induction qs as [|q qs IH]; intros z s outs z1 s1 E; cbn [run_queries] in E.
    - injection E as <- <- <-. apply same_tables_refl.
    - destruct (run_query info Ctypes q z s) as [[o z2] s2] eqn:E1. destruct (run_queries info Ctypes qs z2 s2) as [[os z3] s3] eqn:E2.
      injection E as <- <- <-. eapply same_tables_trans; [eapply ctypes_query; eauto|eauto].
  Qed.

  (** The identity of a stream, once known, is the same for good and needs no system call:
      [s'] is any state of the system. *)
  Theorem C89_identity_is_stable : forall be z s u z1 s1 qs outs z2 s2 s',
    win_unique_id info be z s = (Ok u, z1, s1) -> run_queries info be qs z1 s1 = (outs, z2, s2) ->
    win_unique_id info be z2 s' = (Ok u, z2, s').
  Proof.
    intros be z s u z1 s1 qs outs z2 s2 s' E R.
    assert (Z1 : z_closed (i_z z1) = false /\ i_uid z1 = Some u).
    { unfold win_unique_id in E. destruct (z_closed (i_z z)) eqn:C; [discriminate|]. destruct (i_uid z) as [v|] eqn:U.
      - injection E as <- <- <-. auto.
      - destruct (z_handle (i_z z)) as [h|]; [|discriminate]. destruct (inner_unique_id info be h s) as [[v|e] s3]; [|discriminate].
        injection E as <- <- <-. auto. }
    assert (Z2 : z_closed (i_z z2) = false /\ i_uid z2 = Some u).
    { clear E s. revert z1 s1 outs R Z1. induction qs as [|q qs IH]; intros z1 s1 outs R Z1; cbn [run_queries] in R.
      - injection R as <- <- <-. exact Z1.
      - destruct (run_query info be q z1 s1) as [[o z3] s3] eqn:E1. destruct (run_queries info be qs z3 s3) as [[os z4] s4] eqn:E2.
        injection R as <- <- <-. eapply IH; eauto. destruct Z1 as [C U]. destruct q; cbn [run_query] in E1.
        + unfold win_unique_id in E1. rewrite C, U in E1. injection E1 as <- <- <-. auto.
        + unfold win_times in E1. rewrite C in E1. destruct (z_handle (i_z z1)) as [h|]; [|injection E1 as <- <- <-; auto].
          destruct (inner_times info be h s1). injection E1 as <- <- <-. auto. }
    unfold win_unique_id. destruct Z2 as [-> ->]. reflexivity.
  Qed.

  (** It is that of the file of the handle, and positive; files that the system tells apart
      (by volume and by 64-bit file index, given as two unsigned dwords) have different ones. *)
  Theorem C89_identity_of_the_file : forall be z s u z1 s1, i_uid z = None -> win_unique_id info be z s = (Ok u, z1, s1) ->
    exists h o, z_handle (i_z z) = Some h /\ ws_handles s h = Some o
      /\ u = (hi_serial (info (ho_target o)), double_dwords_to_pyint (hi_low (info (ho_target o))) (hi_high (info (ho_target o))) 32)
      /\ 0 < fst u /\ 0 < snd u.
  Proof.
    intros be z s u z1 s1 U E. unfold win_unique_id in E. rewrite U in E. destruct (z_closed (i_z z)); [discriminate|].
    destruct (z_handle (i_z z)) as [h|]; [|discriminate].
    unfold inner_unique_id, bind in E. destruct (get_information info be h s) as [r s2] eqn:G.
    destruct (get_information_cases _ _ _ _ _ _ G) as [(e & -> & _)|(ob & -> & Ho & _)]; [discriminate|]. cbv zeta in E.
    destruct ((hi_serial (info (ho_target ob)) <=? 0) || _) eqn:B; [discriminate|]. injection E as <- <- <-.
    apply orb_false_iff in B as [B1 B2]. apply Z.leb_gt in B1, B2. exists h, ob. auto.
  Qed.
  Theorem C89_identities_differ : forall a b, 0 <= hi_low a < 2 ^ 32 -> 0 <= hi_high a < 2 ^ 32 -> 0 <= hi_low b < 2 ^ 32 -> 0 <= hi_high b < 2 ^ 32 ->
    double_dwords_to_pyint (hi_low a) (hi_high a) 32 = double_dwords_to_pyint (hi_low b) (hi_high b) 32 -> hi_low a = hi_low b /\ hi_high a = hi_high b.
  Proof.
    intros a b A1 A2 B1 B2 E. destruct (C06_join_split (hi_low a) (hi_high a) 32 ltac:(lia) A1 A2) as [Ha _].
    destruct (C06_join_split (hi_low b) (hi_high b) 32 ltac:(lia) B1 B2) as [Hb _]. rewrite E, Hb in Ha. injection Ha as -> ->. auto.
  Qed.

  (** With pywin32 every answer of times() costs a C descriptor; close() does not give it back. *)
  Lemma pywin32_query q z s o z1 s1 : run_query info Pywin32 q z s = (o, z1, s1) ->
    used (ws_crt s) + (match q, o with QTimes, Ok _ => 1 | _, _ => 0 end) <= used (ws_crt s1) /\ List.length (ws_crt s1) = List.length (ws_crt s)
    /\ i_z z1 = i_z z.
  Proof.
    destruct q; cbn [run_query].
    - unfold win_unique_id. destruct (z_closed (i_z z)); [intros [= <- <- <-]; repeat split; lia|].
      destruct (i_uid z); [intros [= <- <- <-]; repeat split; lia|].
      destruct (z_handle (i_z z)) as [h|]; [|intros [= <- <- <-]; repeat split; lia].
      unfold inner_unique_id, bind. destruct (get_information info Pywin32 h s) as [r s2] eqn:G.
      destruct (get_information_cases _ _ _ _ _ _ G) as [(e & -> & _ & Le & _ & Ln)|(ob & -> & _ & _ & Ln & Us)].
      + intros [= <- <- <-]. repeat split; auto; lia.
      + cbv zeta. destruct ((hi_serial (info (ho_target ob)) <=? 0) || _); intros [= <- <- <-]; repeat split; auto; lia.
    - unfold win_times. destruct (z_closed (i_z z)); [intros [= <- <- <-]; repeat split; lia|].
      destruct (z_handle (i_z z)) as [h|]; [|intros [= <- <- <-]; repeat split; lia].
      unfold inner_times, bind. destruct (get_information info Pywin32 h s) as [r s2] eqn:G.
      destruct (get_information_cases _ _ _ _ _ _ G) as [(e & -> & _ & Le & _ & Ln)|(ob & -> & _ & _ & Ln & Us)]; intros [= <- <- <-]; repeat split; auto; lia.
  Qed.
  Theorem C89_pywin32_uses_descriptors_up : forall qs z s outs z1 s1,
    run_queries info Pywin32 qs z s = (outs, z1, s1) ->
    used (ws_crt s) + times_told qs outs <= used (ws_crt s1) /\ times_told qs outs <= Z.of_nat (List.length (ws_crt s)) - used (ws_crt s).
  Proof.
    assert (Main : forall qs z s outs z1 s1, run_queries info Pywin32 qs z s = (outs, z1, s1) ->
      used (ws_crt s) + times_told qs outs <= used (ws_crt s1) /\ List.length (ws_crt s1) = List.length (ws_crt s)).
    { induction qs as [|q qs IH]; intros z s outs z1 s1 E; cbn [run_queries] in E.
      - injection E as <- <- <-. cbn [times_told]. split; [lia|reflexivity].
      - destruct (run_query info Pywin32 q z s) as [[o z2] s2] eqn:E1. destruct (run_queries info Pywin32 qs z2 s2) as [[os z3] s3] eqn:E2.
        injection E as <- <- <-. apply pywin32_query in E1 as (L1 & N1 & _). apply IH in E2 as (L2 & N2). split; [|congruence].
        cbn [times_told]. destruct q, o; lia. }
    intros qs z s outs z1 s1 E. apply Main in E as [L N]. split; [exact L|]. pose proof (used_bounds (ws_crt s1)). rewrite N in *. lia.
  Qed.
End Queries.

(** The property as expected of both backends, and a stream on which it fails: opened for
    reading, asked once, closed; the C descriptor is still there and its handle is gone. *)
Definition questions_leave_no_trace : Prop := forall info be qs z s outs z1 s1 r z2 s2,
  run_queries info be qs z s = (outs, z1, s1) -> win_iclose z1 s1 = (r, z2, s2) -> used (ws_crt s2) <= used (ws_crt s).
Definition some_info : wtarget -> hinfo := fun _ => mkHinfo 7 5 1 (2, 0) (3, 0).
Definition stream8 : wsi := mkWsi (mkWst None (Some 8) true true false false true false false) None.
Theorem C89_pywin32_refuted : ~ questions_leave_no_trace.
Proof.
  intros P. destruct (run_queries some_info Pywin32 [QTimes] stream8 wdemo) as [[outs z1] s1] eqn:E.
  destruct (win_iclose z1 s1) as [[r z2] s2] eqn:E2. pose proof (P _ _ _ _ _ _ _ _ _ _ _ E E2) as X. clear P.
  vm_compute in E. injection E as _ <- <-. vm_compute in E2. injection E2 as _ _ <-. vm_compute in X. now apply X.
Qed.

(** Three descriptors are free: the query that would need a fourth fails, and so does every one after it; with
    ctypes all is well. *)
Example C89_example :
  let '(outs, _, s) := run_queries some_info Pywin32 [QTimes; QUid; QUid; QTimes; QTimes] stream8 wdemo in
  let '(outs2, _, s2) := run_queries some_info Ctypes [QTimes; QUid; QUid; QTimes; QTimes] stream8 wdemo in
  let t := (2 - EPOCH_TICKS, 3 - EPOCH_TICKS) in let u := (7, 2 ^ 32 + 5) in
  outs = [Ok t; Ok u; Ok u; Ok t; Err (EOS EMFILE)] /\ used (ws_crt s) = 6
  /\ outs2 = [Ok t; Ok u; Ok u; Ok t; Ok t] /\ used (ws_crt s2) = 3.
Proof. vm_compute. auto. Qed.
(** A file system without file indexes: the errno depends on the backend. *)
Example C89_unsupported :
  fst (fst (win_unique_id (fun _ => mkHinfo 7 0 0 (0, 0) (0, 0)) Ctypes stream8 wdemo)) = Err (EOS 50)
  /\ fst (fst (win_unique_id (fun _ => mkHinfo 7 0 0 (0, 0) (0, 0)) Pywin32 stream8 wdemo)) = Err (EOS 22).
Proof. vm_compute. auto. Qed.

Print Assumptions C89_ctypes_leaves_no_trace.
Print Assumptions C89_identity_is_stable.
Print Assumptions C89_identity_of_the_file.
Print Assumptions C89_identities_differ.
Print Assumptions C89_pywin32_uses_descriptors_up.
Print Assumptions C89_pywin32_refuted.
