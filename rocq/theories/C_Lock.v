(** lock_file, unlock_file and the with-block on the sequential world (C19-C22). *)
From Coq Require Import ZArith Ascii String List Bool Lia.
From Verif Require Import M_Base M_Modes M_Registry M_Kernel M_World M_Raw S_Locks S_LockFile S_Demo
  P_Raw P_Registry P_Kernel P_Lock P_LockFile.
Import ListNotations.
Open Scope Z_scope.

Lemma no_trace_fds u h w w1 w' : (forall fd, w_fds w1 fd = w_fds w fd) -> w1 = set_fds w (w_fds w1) ->
  no_trace u h w1 w' -> no_trace u h w w'.
Proof.
  intros H1 H2 []. rewrite H2 in *. cbn in *. constructor; auto. intros fd. now rewrite nt_fds.
Qed.
Lemma no_trace_refl u h w : no_trace u h w w.
Proof. constructor; auto. Qed.

(** * C19 *)

(** A lock_file call that raises leaves nothing behind, whatever the arguments,
    the state, the failures of system calls and the behaviour of others meanwhile. *)
Theorem C19_failed_lock_no_trace f timeout length offset whence shared w e w' :
  raw_lock_file f timeout length offset whence shared w = (Err e, w') -> e <> EHang ->
  no_trace (uid_of f) (fd_of f) w w'.
Proof.
  rewrite lock_file_args. intros H He.
  destruct (f_closed f); [injection H as <- <-; apply no_trace_refl|].
  destruct (f_seekable f); [|injection H as <- <-; apply no_trace_refl]. cbn [negb] in H.
  destruct (args_ok f timeout length offset whence shared) eqn:Ea;
    [|injection H as <- <-; apply no_trace_refl]. cbn [negb] in H.
  destruct (share_ok f _); [|injection H as <- <-; apply no_trace_refl]. cbn [negb] in H.
  destruct (abs_offset f offset whence w) as [r w1] eqn:Eo.
  pose proof (abs_offset_pres _ _ _ _ _ _ Eo) as [F1 F2].
  apply (no_trace_fds _ _ _ w1); auto.
  destruct r as [off|e1]; [|injection H as <- <-; apply no_trace_refl].
  set (q := mkReq _ _ _ _ _) in H.
  pose proof (loop_general f q (args_ok_len _ _ _ _ _ _ Ea) false (w_env w1) w1) as O.
  specialize (O ltac:(discriminate)).
  destruct (lock_loop f q (w_env w1) PhReg w1) as [[] w2] eqn:El; [discriminate|].
  injection H as -> ->.
  inversion O; subst; try congruence; eapply linv_no_trace; eauto.
Qed.

(** If moreover the others keep their locks, all lock tables are exactly as before. *)
Theorem C19_failed_lock_tables_unchanged f timeout length offset whence shared w e w' :
  raw_lock_file f timeout length offset whence shared w = (Err e, w') -> e <> EHang ->
  Forall quiet (w_env w) ->
  w_kern w' = w_kern w /\ (forall v, table w' v = table w v).
Proof.
  rewrite lock_file_args. intros H He Hq.
  destruct (f_closed f); [injection H as <- <-; auto|].
  destruct (f_seekable f); [|injection H as <- <-; auto]. cbn [negb] in H.
  destruct (args_ok f timeout length offset whence shared) eqn:Ea; [|injection H as <- <-; auto]. cbn [negb] in H.
  destruct (share_ok f _); [|injection H as <- <-; auto]. cbn [negb] in H.
  destruct (abs_offset f offset whence w) as [r w1] eqn:Eo.
  pose proof (abs_offset_pres _ _ _ _ _ _ Eo) as [F1 F2].
  assert (w_kern w1 = w_kern w /\ w_env w1 = w_env w /\ forall v, table w1 v = table w v) as (K1 & V1 & T1).
  { rewrite F2. auto. }
  rewrite <- K1. assert (w_kern w' = w_kern w1 /\ (forall v, table w' v = table w1 v)) as X.
  2:{ destruct X as [X1 X2]. split; auto. intros v. now rewrite X2. }
  destruct r as [off|e1]; [|injection H as <- <-; auto].
  set (q := mkReq _ _ _ _ _) in H.
  pose proof (loop_general f q (args_ok_len _ _ _ _ _ _ Ea) true (w_env w1) w1) as O.
  specialize (O ltac:(intros _; now rewrite V1)).
  destruct (lock_loop f q (w_env w1) PhReg w1) as [[] w2] eqn:El; [discriminate|].
  injection H as -> ->.
  assert (linv f q true (norm w1) PhReg w') as L by (inversion O; subst; try congruence; auto).
  pose proof (li_quiet _ _ _ _ _ _ L eq_refl) as [Q1 Q2]. split; [exact Q1|].
  intros v. unfold table at 1. rewrite registry_of_id by apply (li_rpid _ _ _ _ _ _ L).
  destruct (uid_dec v (uid_of f)) as [->|Hv].
  - cbn [is_reg] in Q2. rewrite app_nil_r in Q2. exact Q2.
  - rewrite (li_other _ _ _ _ _ _ L v Hv). reflexivity.
Qed.

(** * C20 *)

Lemma working_cases f timeout length offset whence shared w r w' :
  f_closed f = false -> f_seekable f = true ->
  args_ok f timeout length offset whence shared = true ->
  share_ok f (share_of f shared) = true ->
  forall off, resolves f w offset whence off -> 0 <= off ->
  (whence = 1 -> forall o, w_fds w (fd_of f) = Some o -> 0 <= o_pos o) ->
  (forall o i, w_fds w (fd_of f) = Some o -> w_inodes w (o_uid o) = Some i -> n_kind i = KReg) ->
  lockable f w (share_of f shared) ->
  ~ own_overlap w (uid_of f) (fd_of f) off (parg_opt length) ->
  raw_lock_file f timeout length offset whence shared w = (r, w') ->
  let q := mkReq (parg_opt length) off (share_of f shared) (parg_opt timeout) (w_clock w) in
  r = Ok (parg_opt length, off)
  \/ (r = Err EHang /\ busy w' (uid_of f) (fd_of f) off (parg_opt length) (share_of f shared)
      /\ (low_level_blocking f q = true \/ exists n, check_timeout f q (w_clock w') n = None))
  \/ (exists e n, r = Err e /\ check_timeout f q (w_clock w') n = Some e
      /\ busy w' (uid_of f) (fd_of f) off (parg_opt length) (share_of f shared)).
Proof.
  intros Hc Hs Ha Hsh off Hres Hoff Hpos Hkind Hlk Hown H q.
  rewrite lock_file_args in H. rewrite Hc, Hs, Ha, Hsh in H. cbn [negb] in H.
  assert (exists w1, abs_offset f offset whence w = (Ok off, w1)) as (w1 & Eo).
  { unfold abs_offset, bind. destruct Hres as [(-> & Hz)|(o & i & Ho & Hi & [(-> & Hz)|(-> & Hz)])].
    - cbn. rewrite Hz. unfold ret. eauto.
    - cbn [Z.eqb Pos.eqb]. unfold inner_tell, sys_lseek, bind, get_fd. rewrite Ho, Hi, (Hkind _ _ Ho Hi).
      cbn [Z.eqb Pos.eqb]. pose proof (Hpos eq_refl _ Ho).
      destruct (Z.ltb_spec (o_pos o + 0) 0); [lia|]. rewrite Z.add_0_r, Hz. unfold ret. eauto.
    - cbn [Z.eqb Pos.eqb]. unfold inner_size, sys_fstat, bind, get_fd. rewrite Ho, Hi, Hz.
      unfold ret. cbn. eauto. }
  rewrite Eo in H. pose proof (abs_offset_pres _ _ _ _ _ _ Eo) as [F1 F2].
  assert (w_clock w1 = w_clock w) as C1 by (rewrite F2; auto). rewrite C1 in H. fold q in H.
  assert (lockable f w1 (q_shared q)) as Hlk1.
  { destruct Hlk as [(o & A & B) Hi Hio]. rewrite F2. constructor; cbn; auto. exists o. now rewrite F1. }
  pose proof (loop_working f q (args_ok_len _ _ _ _ _ _ Ha) false (w_env w1) w1 ltac:(discriminate) Hlk1 Hoff) as O.
  destruct (lock_loop f q (w_env w1) PhReg w1) as [[] w2] eqn:El.
  - injection H as <- <-. auto.
  - injection H as <- <-. right.
    inversion O as [|ph w3 L Hf Ht|w3 lk L Hin Hcs|e1 n w3 L Ht Hf]; subst.
    + left. split; [auto|]. split; auto. apply (refused_busy f q); auto. apply (li_rpid _ _ _ _ _ _ L).
    + exfalso. apply Hown. pose proof (li_mine _ _ _ _ _ _ L) as Hm. cbn [is_reg] in Hm. rewrite app_nil_r in Hm.
      destruct Hcs as (Hh & b & B1 & B2). apply range_end_covers in B2.
      exists lk, b. split; [|auto].
      assert (In lk (filter (fun lk => lk_handle lk =? fd_of f) (locks_of (w_reg w2) (uid_of f)))) as X.
      { apply filter_In. split; auto. now apply Z.eqb_eq. }
      rewrite Hm in X. apply filter_In in X. destruct X as [X _]. rewrite F2 in X. exact X.
    + right. exists e, n. split; [auto|]. split; auto. apply (refused_busy f q); auto. apply (li_rpid _ _ _ _ _ _ L).
Qed.

(** What a caller must do to get past the argument checks. *)
Record proper_call (f : rawio) (w : world) (length offset : parg) (whence : Z) (shared : bool) (off : Z) : Prop := mkPC {
  pc_open : f_closed f = false;
  pc_seekable : f_seekable f = true;
  pc_length : ~ wrong_nonneg length;
  pc_offset : offset <> PBad;
  pc_whence : whence = 0 \/ whence = 1 \/ whence = 2;
  pc_share : (if shared then f_readable f else f_writable f) = true;
  pc_resolves : resolves f w offset whence off;
  pc_off : 0 <= off;
  pc_lockable : lockable f w shared;
  pc_regular : forall o i, w_fds w (fd_of f) = Some o -> w_inodes w (o_uid o) = Some i ->
               n_kind i = KReg /\ 0 <= o_pos o;
  pc_fresh : ~ own_overlap w (uid_of f) (fd_of f) off (parg_opt length) }.

Lemma proper_cases f w length offset whence shared off timeout r w' :
  proper_call f w length offset whence shared off -> ~ wrong_nonneg timeout ->
  raw_lock_file f timeout length offset whence (SBool shared) w = (r, w') ->
  let q := mkReq (parg_opt length) off shared (parg_opt timeout) (w_clock w) in
  r = Ok (parg_opt length, off)
  \/ (r = Err EHang /\ busy w' (uid_of f) (fd_of f) off (parg_opt length) shared
      /\ (low_level_blocking f q = true \/ exists n, check_timeout f q (w_clock w') n = None))
  \/ (exists e n, r = Err e /\ check_timeout f q (w_clock w') n = Some e
      /\ busy w' (uid_of f) (fd_of f) off (parg_opt length) shared).
Proof.
  intros [] Ht H.
  assert (forall p, ~ wrong_nonneg p -> bad_nonneg p = false) as Hb.
  { intros p Hp. destruct p; cbn; auto.
    - destruct (Z.ltb_spec z 0); auto. exfalso. apply Hp. right. eauto.
    - exfalso. apply Hp. now left. }
  apply (working_cases f timeout length offset whence (SBool shared) w); auto.
  - unfold args_ok. rewrite pc_open0, pc_seekable0, (Hb timeout), (Hb length) by auto. cbn [negb andb].
    destruct offset; try congruence; cbn; unfold seek_value; destruct pc_whence0 as [->|[->| ->]]; reflexivity.
  - intros _ o Ho. destruct pc_lockable0 as [(o' & Ho' & Hu & _) Hi _].
    assert (o' = o) as -> by congruence. rewrite <- Hu in Hi.
    destruct (w_inodes w (o_uid o)) as [i|] eqn:Ei; [|congruence]. eapply pc_regular0; eauto.
  - intros o i Ho Hi. eapply pc_regular0; eauto.
Qed.

(** With timeout T: success, or LockingException once T elapsed and only then, or still
    trying before T; in the last two cases the lock is not available. *)
Theorem C20_lock_timeout f w length offset whence shared off T r w' :
  proper_call f w length offset whence shared off -> 0 <= T -> 0 <= f_spin f ->
  raw_lock_file f (PInt T) length offset whence (SBool shared) w = (r, w') ->
  r = Ok (parg_opt length, off)
  \/ ((exists n, r = Err (ELocking n)) /\ T <= w_clock w' - w_clock w
      /\ busy w' (uid_of f) (fd_of f) off (parg_opt length) shared)
  \/ (r = Err EHang /\ w_clock w' - w_clock w < T
      /\ busy w' (uid_of f) (fd_of f) off (parg_opt length) shared).
Proof.
  intros P HT Hspin H.
  assert (~ wrong_nonneg (PInt T)) as Hw.
  { intros [X|(z & [= <-] & X)]; [discriminate|lia]. }
  destruct (proper_cases _ _ _ _ _ _ _ _ _ _ P Hw H) as [X|[(X & B & [L|(n & C)])|(e & n & X & C & B)]]; auto.
  - discriminate.
  - right; right. split; auto. split; auto. unfold check_timeout in C. cbn in C.
    destruct (Z.leb_spec T (w_clock w' - w_clock w)); [discriminate|lia].
  - right; left. unfold check_timeout in C. cbn in C.
    destruct (Z.leb_spec T (w_clock w' - w_clock w)).
    + injection C as <-. eauto.
    + destruct (Z.ltb_spec (f_spin f) 0); [lia|discriminate].
Qed.

(** Without timeout nor enforced timeout: success or waiting, never an exception. *)
Theorem C20_lock_blocking f w length offset whence shared off r w' :
  proper_call f w length offset whence shared off -> f_enforced f = None -> 0 <= f_spin f ->
  raw_lock_file f PNone length offset whence (SBool shared) w = (r, w') ->
  r = Ok (parg_opt length, off)
  \/ (r = Err EHang /\ busy w' (uid_of f) (fd_of f) off (parg_opt length) shared).
Proof.
  intros P He Hspin H. assert (~ wrong_nonneg PNone) as Hw by (intros [X|(z & X & _)]; discriminate).
  destruct (proper_cases _ _ _ _ _ _ _ _ _ _ P Hw H) as [X|[(X & B & _)|(e & n & X & C & B)]]; auto.
  unfold check_timeout in C. cbn in C. rewrite He in C.
  destruct (Z.ltb_spec (f_spin f) 0); [lia|discriminate].
Qed.

(** With an enforced timeout E (and no timeout): RuntimeError once E elapsed, never LockingException. *)
Theorem C20_lock_enforced_timeout f w length offset whence shared off E r w' :
  proper_call f w length offset whence shared off -> f_enforced f = Some E -> 0 <= f_spin f ->
  raw_lock_file f PNone length offset whence (SBool shared) w = (r, w') ->
  r = Ok (parg_opt length, off)
  \/ (r = Err ERuntime /\ E <= w_clock w' - w_clock w
      /\ busy w' (uid_of f) (fd_of f) off (parg_opt length) shared)
  \/ (r = Err EHang /\ w_clock w' - w_clock w < E
      /\ busy w' (uid_of f) (fd_of f) off (parg_opt length) shared).
Proof.
  intros P He Hspin H. assert (~ wrong_nonneg PNone) as Hw by (intros [X|(z & X & _)]; discriminate).
  destruct (proper_cases _ _ _ _ _ _ _ _ _ _ P Hw H) as [X|[(X & B & [L|(n & C)])|(e & n & X & C & B)]]; auto.
  - unfold low_level_blocking in L. cbn in L. rewrite He in L. discriminate.
  - right; right. split; auto. split; auto. unfold check_timeout in C. cbn in C. rewrite He in C.
    destruct (Z.leb_spec E (w_clock w' - w_clock w)); [discriminate|lia].
  - right; left. unfold check_timeout in C. cbn in C. rewrite He in C.
    destruct (Z.leb_spec E (w_clock w' - w_clock w)).
    + injection C as <-. auto.
    + destruct (Z.ltb_spec (f_spin f) 0); [lia|discriminate].
Qed.

(** A call that returned does not depend on what happens later: so the theorems
    above, applied to a prefix of the events, tell at which attempt the call returns. *)
Theorem C20_lock_result_prefix f timeout length offset whence shared w env more r w' :
  raw_lock_file f timeout length offset whence shared (set_env w env) = (r, w') -> r <> Err EHang ->
  exists w'', raw_lock_file f timeout length offset whence shared (set_env w (env ++ more)) = (r, w'')
    /\ set_env w'' [] = set_env w' [].
Proof.
  rewrite !lock_file_args. intros H Hr.
  destruct (f_closed f). { injection H as <- <-. eauto. }
  destruct (negb (f_seekable f)). { injection H as <- <-. eauto. }
  destruct (negb (args_ok f timeout length offset whence shared)). { injection H as <- <-. eauto. }
  destruct (negb (share_ok f (share_of f shared))). { injection H as <- <-. eauto. }
  rewrite abs_offset_env in *. unfold with_env in *.
  destruct (abs_offset f offset whence w) as [[off|e] w1]; cbn [fst snd] in *.
  2:{ injection H as <- <-. eauto. }
  cbn [w_env w_clock set_env] in *. set (q := mkReq _ _ _ _ _) in *.
  pose proof (lock_loop_stable f q more env PhReg (set_env w1 env) (env ++ more)) as Hst.
  destruct (lock_loop f q env PhReg (set_env w1 env)) as [rr w2].
  unfold stab in Hst. cbn [fst] in Hst.
  assert (rr <> Err EHang) as Hrr. { destruct rr; [discriminate|]. injection H as <- <-. intros [= ->]. now apply Hr. }
  destruct (Hst Hrr) as (y & Ey). rewrite set_env_set_env in Ey. rewrite Ey. unfold with_env. cbn [fst snd].
  destruct rr; injection H as <- <-; eexists; split; try reflexivity.
Qed.

Lemma busy_back f q ph w w' : linv f q true (norm w) ph w' ->
  busy w' (uid_of f) (fd_of f) (q_off q) (q_length q) (q_shared q) ->
  busy w (uid_of f) (fd_of f) (q_off q) (q_length q) (q_shared q).
Proof.
  intros L. destruct (li_quiet _ _ _ _ _ _ L eq_refl) as [Q1 Q2].
  intros [(lk & b & Hin & Hh & X)|(s & b & Hin & X)].
  - left. exists lk, b. split; auto. unfold table in Hin. rewrite registry_of_id in Hin by apply (li_rpid _ _ _ _ _ _ L).
    change (In lk (locks_of (w_reg w') (uid_of f))) in Hin. rewrite Q2 in Hin. apply in_app_or in Hin.
    destruct Hin as [Hin|Hin]; [exact Hin|]. destruct (is_reg ph); [|destruct Hin].
    destruct Hin as [<-|[]]. cbn in Hh. congruence.
  - right. exists s, b. rewrite Q1 in Hin. rewrite (li_pid _ _ _ _ _ _ L) in X. split; auto.
Qed.

(** An available lock is obtained at once, whatever the timeout. *)
Theorem C20_lock_available f w length offset whence shared off timeout :
  proper_call f w length offset whence shared off -> ~ wrong_nonneg timeout ->
  ~ busy w (uid_of f) (fd_of f) off (parg_opt length) shared ->
  exists w', raw_lock_file f timeout length offset whence (SBool shared) w = (Ok (parg_opt length, off), w').
Proof.
  intros P Ht Hn.
  assert (exists w', raw_lock_file f timeout length offset whence (SBool shared) (set_env w [])
                     = (Ok (parg_opt length, off), w')) as (w' & E).
  { assert (proper_call f (set_env w []) length offset whence shared off) as P'
      by (destruct P as [? ? ? ? ? ? ? ? [] ? ?]; constructor; auto; constructor; auto).
    destruct (raw_lock_file f timeout length offset whence (SBool shared) (set_env w [])) as [r w'] eqn:E.
    exists w'. f_equal.
    pose proof E as E0. rewrite lock_file_args in E0.
    destruct (f_closed f) eqn:Hc. { destruct P. congruence. }
    destruct (f_seekable f) eqn:Hs; [|destruct P; congruence]. cbn [negb] in E0.
    destruct (proper_cases _ _ _ _ _ _ _ _ _ _ P' Ht E) as [X|[(X & B & _)|(e & n & X & C & B)]]; auto; exfalso.
    - destruct (args_ok f timeout length offset whence (SBool shared)) eqn:Ea; [|injection E0 as <- <-; discriminate].
      cbn [negb] in E0. destruct (share_ok f _); [|injection E0 as <- <-; discriminate]. cbn [negb] in E0.
      destruct (abs_offset f offset whence (set_env w [])) as [[o1|e1] w1] eqn:Eo.
      2:{ injection E0 as <- <-. injection X as ->. revert Eo. clear. unfold abs_offset.
          destruct (whence =? 0); [discriminate|]. destruct (whence =? 1).
          - unfold bind, inner_tell, sys_lseek, bind, get_fd.
            destruct (w_fds (set_env w []) (fd_of f)); [|discriminate].
            destruct (w_inodes (set_env w []) (o_uid o)); [|discriminate]. cbn [Z.eqb Pos.eqb].
            destruct (n_kind i); try discriminate; destruct (o_pos o + 0 <? 0); discriminate.
          - unfold bind, inner_size, sys_fstat, bind, get_fd.
            destruct (w_fds (set_env w []) (fd_of f)); [|discriminate].
            destruct (w_inodes (set_env w []) (o_uid o)); discriminate. }
      pose proof (abs_offset_pres _ _ _ _ _ _ Eo) as [F1 F2].
      assert (w_env w1 = []) as V1 by (rewrite F2; auto). rewrite V1 in E0.
      assert (o1 = off) as ->.
      { pose proof (pc_resolves _ _ _ _ _ _ _ P') as R. clear - Eo R. unfold abs_offset in Eo.
        destruct R as [(-> & ->)|(o & i & Ho & Hi & [(-> & ->)|(-> & ->)])]; cbn [Z.eqb Pos.eqb] in Eo.
        - injection Eo as <- _. auto.
        - unfold bind, inner_tell, sys_lseek, bind, get_fd in Eo. rewrite Ho, Hi in Eo. cbn [Z.eqb Pos.eqb] in Eo.
          destruct (n_kind i); try discriminate; destruct (o_pos o + 0 <? 0); try discriminate;
            injection Eo as <- _; lia.
        - unfold bind, inner_size, sys_fstat, bind, get_fd in Eo. rewrite Ho, Hi in Eo. injection Eo as <- _. reflexivity. }
      cbn [share_of] in E0. set (q := mkReq _ _ _ _ _) in E0.
      pose proof (loop_general f q (args_ok_len _ _ _ _ _ _ Ea) true [] w1 ltac:(intros _; constructor)) as O.
      destruct (lock_loop f q [] PhReg w1) as [rr w2]. destruct rr; injection E0 as <- <-; [discriminate|].
      injection X as ->. apply Hn.
      assert (busy w1 (uid_of f) (fd_of f) off (parg_opt length) shared) as B1.
      { inversion O as [|ph w3 L| |e1 n w3 L Hto]; subst.
        - apply (busy_back f q ph w1 w2 L B).
        - unfold check_timeout in Hto. cbn in Hto. destruct (parg_opt timeout).
          + destruct (_ <=? _); [discriminate|]. destruct (_ <? _); discriminate.
          + destruct (f_enforced f).
            * destruct (_ <=? _); [discriminate|]. destruct (_ <? _); discriminate.
            * destruct (_ <? _); discriminate. }
      rewrite F2 in B1. exact B1.
    - assert (e <> EHang) as He.
      { unfold check_timeout in C. cbn in C. destruct (parg_opt timeout).
        + destruct (_ <=? _); [injection C as <-; discriminate|]. destruct (_ <? _); [injection C as <-|]; discriminate.
        + destruct (f_enforced f).
          * destruct (_ <=? _); [injection C as <-; discriminate|]. destruct (_ <? _); [injection C as <-|]; discriminate.
          * destruct (_ <? _); [injection C as <-|]; discriminate. }
      subst r. destruct (C19_failed_lock_tables_unchanged _ _ _ _ _ _ _ _ _ E He) as [K1 T1]; [constructor|].
      pose proof (C19_failed_lock_no_trace _ _ _ _ _ _ _ _ _ E He) as NT. apply Hn.
      destruct B as [(lk & b & Hin & Y)|(s & b & Hin & Y)].
      + left. exists lk, b. rewrite T1 in Hin. auto.
      + right. exists s, b. rewrite K1 in Hin. rewrite (nt_pid _ _ _ _ NT) in Y. auto. }
  destruct (C20_lock_result_prefix _ _ _ _ _ _ w [] (w_env w) _ _ E) as (w'' & E' & _); [discriminate|].
  exists w''. cbn [app] in E'. assert (set_env w (w_env w) = w) as Hid by (destruct w; reflexivity).
  now rewrite Hid in E'.
Qed.

(** timeout=0: one attempt; no waiting at all. *)
Theorem C20_lock_timeout_zero f length offset whence shared w r w' :
  raw_lock_file f (PInt 0) length offset whence shared w = (r, w') ->
  r <> Err EHang /\ w_env w' = w_env w /\ w_clock w' = w_clock w.
Proof.
  rewrite lock_file_args. intros H.
  destruct (f_closed f). { injection H as <- <-. repeat split; auto; discriminate. }
  destruct (negb (f_seekable f)). { injection H as <- <-. repeat split; auto; discriminate. }
  destruct (negb (args_ok _ _ _ _ _ _)). { injection H as <- <-. repeat split; auto; discriminate. }
  destruct (negb (share_ok f (share_of f shared))). { injection H as <- <-. repeat split; auto; discriminate. }
  destruct (abs_offset f offset whence w) as [ro w1] eqn:Eo.
  assert (w_env w1 = w_env w /\ w_clock w1 = w_clock w) as [V C].
  { destruct (abs_offset_pres _ _ _ _ _ _ Eo) as [_ ->]. auto. }
  rewrite <- V, <- C in *.
  assert (forall e, ro = Err e -> e <> EHang) as Hno.
  { clear - Eo. intros e ->. unfold abs_offset in Eo. destruct (whence =? 0); [discriminate|].
    destruct (whence =? 1).
    - unfold bind, inner_tell, sys_lseek, bind, get_fd in Eo.
      destruct (w_fds w (fd_of f)); [|injection Eo as <- <-; discriminate].
      destruct (w_inodes w (o_uid o)); [|injection Eo as <- <-; discriminate].
      cbn [Z.eqb Pos.eqb] in Eo.
      destruct (n_kind i); try (destruct (o_pos o + 0 <? 0)); try discriminate Eo; injection Eo as <- <-; discriminate.
    - unfold bind, inner_size, sys_fstat, bind, get_fd in Eo.
      destruct (w_fds w (fd_of f)); [|injection Eo as <- <-; discriminate].
      destruct (w_inodes w (o_uid o)); [discriminate|injection Eo as <- <-; discriminate]. }
  destruct ro as [off|e]. 2:{ injection H as <- <-. repeat split; auto. intros [= ->]. now apply (Hno EHang). }
  set (q := mkReq _ _ _ _ _) in H.
  assert (forall b n, check_timeout f q (w_clock w1) n = None -> b = false -> False) as Hct.
  { intros b n. unfold check_timeout. cbn. rewrite Z.sub_diag. discriminate. }
  rewrite lock_loop_eq in H. unfold l_register in H.
  destruct (register_once _ _ _ _ _ _ _ _) as [rr reg] eqn:Er.
  assert (forall w2, w_env w2 = w_env w1 -> w_clock w2 = w_clock w1 -> forall n b rr w3,
     l_sleep f q (w_env w1) (if b : bool then PhKern else PhReg) n b w2 = (rr, w3) ->
     rr <> Err EHang /\ rr <> Ok tt /\ w_env w3 = w_env w1 /\ w_clock w3 = w_clock w1) as Hsl.
  { intros w2 V2 C2 n b rr' w3. unfold l_sleep. rewrite C2.
    assert (check_timeout f q (w_clock w1) n = Some (ELocking n)) as ->.
    { unfold check_timeout. cbn. rewrite Z.sub_diag. reflexivity. }
    unfold l_fail. destruct b.
    - unfold unregister, unregister_file_lock, try_unlocking_range.
      destruct (r_map _ _); [destruct (delete_match _ _ _ _)|]; intros [= <- <-]; repeat split; auto; discriminate.
    - intros [= <- <-]. repeat split; auto; discriminate. }
  assert (low_level_blocking f q = false) as Eb by reflexivity.
  assert (forall w2, w_env w2 = w_env w1 -> w_clock w2 = w_clock w1 -> forall rr w3,
     l_kern f q (w_env w1) w2 = (rr, w3) -> rr <> Err EHang /\ w_env w3 = w_env w1 /\ w_clock w3 = w_clock w1) as Hk.
  { intros w2 V2 C2 rr' w3. unfold l_kern.
    destruct (lock_pre_cases f q w2) as (io & _ & [(v & E & _)|(e & E)]); rewrite E.
    - unfold l_attempt, lock_attempt. destruct (ksetlk _ _ _ _ _ _).
      + intros [= <- <-]. repeat split; auto; discriminate.
      + rewrite Eb. intros X. destruct (Hsl (set_io w2 io) V2 C2 EAGAIN true _ _ X) as (? & ? & ? & ?). auto.
    - intros X. destruct (Hsl (set_io w2 io) V2 C2 e true _ _ X) as (? & ? & ? & ?). auto. }
  rewrite Eb in H.
  assert (match rr with Err e => e <> EHang | _ => True end) as Hrr.
  { destruct rr; auto. unfold register_once in Er. apply try_locking_cases in Er. destruct Er as (LC & _).
    inversion LC. discriminate. }
  destruct rr as [[]|e].
  - destruct (l_kern f q (w_env w1) (set_reg w1 reg)) as [[] w3] eqn:E; injection H as <- <-;
      destruct (Hk (set_reg w1 reg) eq_refl eq_refl _ _ E) as (? & ? & ?); repeat split; auto; congruence.
  - destruct (l_sleep f q (w_env w1) PhReg EPERM false (set_reg w1 reg)) as [[] w3] eqn:E; injection H as <- <-;
      destruct (Hsl (set_reg w1 reg) eq_refl eq_refl EPERM false _ _ E) as (? & ? & ? & ?); repeat split; auto; congruence.
  - injection H as <- <-. repeat split; auto. congruence.
Qed.

(** * C21 *)
Lemma wrong_bad p : wrong_nonneg p -> bad_nonneg p = true.
Proof. intros [->|(z & -> & H)]; cbn; auto. lia. Qed.

(** Wrong arguments are rejected and nothing is touched. *)
Theorem C21_lock_file_rejects f timeout length offset whence shared w :
  f_closed f = false -> f_seekable f = true ->
  (wrong_nonneg timeout \/ wrong_nonneg length \/ offset = PBad
   \/ (whence <> 0 /\ whence <> 1 /\ whence <> 2) \/ shared = SBad) ->
  raw_lock_file f timeout length offset whence shared w = (Err EBadValue, w).
Proof.
  intros Hc Hs H. rewrite lock_file_args, Hc, Hs. cbn [negb].
  assert (args_ok f timeout length offset whence shared = false) as ->; [|reflexivity].
  unfold args_ok. rewrite !andb_false_iff, !negb_false_iff.
  destruct H as [H|[H|[->|[H| ->]]]].
  - apply wrong_bad in H. tauto.
  - apply wrong_bad in H. tauto.
  - tauto.
  - left; right. unfold seek_value. rewrite !orb_false_iff, !Z.eqb_neq. tauto.
  - now right.
Qed.

(** A lock kind the access mode does not allow, a closed or unseekable stream: same. *)
Theorem C21_lock_file_wrong_kind f timeout length offset whence shared w :
  f_closed f = false -> f_seekable f = true ->
  ~ wrong_nonneg timeout -> ~ wrong_nonneg length -> offset <> PBad -> shared <> SBad ->
  whence = 0 \/ whence = 1 \/ whence = 2 ->
  (match shared with SBool b => b | _ => negb (f_writable f) end = true /\ f_readable f = false
   \/ match shared with SBool b => b | _ => negb (f_writable f) end = false /\ f_writable f = false) ->
  raw_lock_file f timeout length offset whence shared w = (Err (EOS 0), w).
Proof.
  intros Hc Hs Ht Hl Ho Hsh Hwh H. rewrite lock_file_args, Hc, Hs. cbn [negb].
  assert (forall p, ~ wrong_nonneg p -> bad_nonneg p = false) as Hb.
  { intros p Hp. destruct p; cbn; auto.
    - destruct (Z.ltb_spec z 0); auto. exfalso. apply Hp. right. eauto.
    - exfalso. apply Hp. now left. }
  assert (args_ok f timeout length offset whence shared = true) as ->.
  { unfold args_ok. rewrite Hc, Hs, !Hb by auto. cbn [negb andb].
    destruct offset; try congruence; destruct shared; try congruence;
      unfold seek_value; destruct Hwh as [->|[->| ->]]; reflexivity. }
  assert (share_ok f (share_of f shared) = false) as ->; [|reflexivity].
  unfold share_ok, share_of. destruct H as [[H1 H2]|[H1 H2]]; rewrite H1; auto.
Qed.
Theorem C21_lock_file_closed f timeout length offset whence shared w :
  (f_closed f = true -> raw_lock_file f timeout length offset whence shared w = (Err EValue, w))
  /\ (f_closed f = false -> f_seekable f = false ->
      raw_lock_file f timeout length offset whence shared w = (Err EUnsupported, w)).
Proof. rewrite lock_file_args. split; [intros ->; reflexivity|intros -> ->; reflexivity]. Qed.

(** Default: exclusive iff the stream is writable. *)
Theorem C21_lock_file_default_share f timeout length offset whence w :
  raw_lock_file f timeout length offset whence SNone w
  = raw_lock_file f timeout length offset whence (SBool (negb (f_writable f))) w.
Proof. rewrite !lock_file_args. reflexivity. Qed.

(** A successful call: the offset was resolved at the time of the call, and the
    lock asked for is held. *)
Theorem C21_lock_file_obtains f timeout length offset whence shared w len off w' :
  raw_lock_file f timeout length offset whence (SBool shared) w = (Ok (len, off), w') ->
  len = parg_opt length /\ resolves f w offset whence off /\ 0 <= off
  /\ obtained f w w' off len shared.
Proof.
  rewrite lock_file_args. destruct (f_closed f); [discriminate|].
  destruct (negb (f_seekable f)); [discriminate|].
  destruct (args_ok f timeout length offset whence (SBool shared)) eqn:Ea; [|discriminate]. cbn [negb].
  destruct (negb _); [discriminate|].
  destruct (abs_offset f offset whence w) as [[off1|e] w1] eqn:Eo; [|discriminate].
  pose proof (abs_offset_pres _ _ _ _ _ _ Eo) as [F1 F2]. cbn [share_of].
  set (q := mkReq _ _ _ _ _).
  pose proof (loop_general f q (args_ok_len _ _ _ _ _ _ Ea) false (w_env w1) w1 ltac:(discriminate)) as O.
  destruct (lock_loop f q (w_env w1) PhReg w1) as [[] w2] eqn:El; [|discriminate].
  intros [= <- <- <-].
  inversion O as [w3 K L Hoff HK| | | ]; subst.
  split; [reflexivity|]. split; [|split; [exact Hoff|]].
  - unfold resolves. unfold abs_offset in Eo.
    unfold args_ok in Ea. rewrite !andb_true_iff in Ea. destruct Ea as [[_ Ea] _]. unfold seek_value in Ea.
    rewrite !orb_true_iff, !Z.eqb_eq in Ea.
    destruct (Z.eqb_spec whence 0). { injection Eo as <- <-. auto. }
    right. destruct (Z.eqb_spec whence 1).
    + unfold bind, inner_tell, sys_lseek, bind, get_fd in Eo.
      destruct (w_fds w (fd_of f)) as [o|]; [|discriminate].
      destruct (w_inodes w (o_uid o)) as [i|] eqn:Ei; [|discriminate]. exists o, i. repeat split; auto.
      left. split; auto. cbn [Z.eqb Pos.eqb] in Eo.
      destruct (n_kind i); try discriminate; destruct (o_pos o + 0 <? 0); try discriminate;
        injection Eo as <- _; rewrite Z.add_0_r; auto.
    + unfold bind, inner_size, sys_fstat, bind, get_fd in Eo.
      destruct (w_fds w (fd_of f)) as [o|]; [|discriminate].
      destruct (w_inodes w (o_uid o)) as [i|] eqn:Ei; [|discriminate]. exists o, i. repeat split; auto.
      right. split; [lia|]. injection Eo as <- _. auto.
  - destruct (ok_granted f q false w1 w3 K L HK). rewrite F2 in *. cbn in *.
    constructor; auto.
    + intros fd. cbn. rewrite gr_fds. cbn. auto.
    + exists (mkLock (fd_of f) shared off1 (range_end off1 (parg_opt length))).
      split; [auto|]. split; [reflexivity|]. split; [reflexivity|]. intros b. apply range_end_covers.
Qed.

(** * C22 *)

(** Leaving the block normally releases the lock (system calls working): its
    record is gone and the kernel lock on its bytes too. *)
Theorem C22_with_lock_releases_partial {A} f timeout length offset whence shared (body : M A)
    w len off w1 a w2 r w' :
  raw_lock_file f timeout length offset whence (SBool shared) w = (Ok (len, off), w1) ->
  body w1 = (Ok a, w2) ->
  raw_with_lock f timeout length offset whence (SBool shared) body w = (r, w') ->
  (* the body kept the stream open and did not itself release the lock *)
  (exists lk, In lk (mine w2 (uid_of f) (fd_of f)) /\ lk_start lk = off /\ lk_end lk = range_end off len) ->
  lockable f w2 shared ->
  (exists m1 lk m2, mine w2 (uid_of f) (fd_of f) = m1 ++ lk :: m2
      /\ mine w' (uid_of f) (fd_of f) = m1 ++ m2
      /\ lk_start lk = off /\ lk_end lk = range_end off len)
  /\ (forall sh b, covers off len b -> ~ process_holds w' (uid_of f) sh b)
  /\ (pending w2 (uid_of f) = [] -> r = Ok a).
Proof.
  intros Hl Hb Hw Hrec [(o & Ho & Hu & _) Hi Hio].
  destruct (C21_lock_file_obtains _ _ _ _ _ _ _ _ _ _ Hl) as (Elen & _ & Hoff & _).
  unfold raw_with_lock, bind in Hw. rewrite Hl, Hb in Hw. cbn [fst snd] in Hw.
  assert (f_closed f = false /\ f_seekable f = true /\ match len with Some l => 0 <= l | None => True end) as (Hc & Hs & Hlen).
  { rewrite lock_file_args in Hl. destruct (f_closed f); [discriminate|]. destruct (f_seekable f); [|discriminate].
    cbn [negb] in Hl. destruct (args_ok _ _ _ _ _ _) eqn:Ea; [|discriminate]. subst len.
    repeat split; auto. eapply args_ok_len; eauto. }
  destruct (raw_unlock_file f _ (PInt off) 0 w2) as [ru w3] eqn:Eu.
  pose proof (unlock_file_ok f len off w2 Hc Hs Hoff Hlen Hrec (ex_intro _ o (conj Ho Hu)) Hi Hio _ _ Eu) as (U1 & U2 & U3).
  destruct ru as [[]|e]; injection Hw as <- <-; repeat split; auto.
  intros X. specialize (U3 X). discriminate.
Qed.

(** Leaving it by an exception releases nothing: the world is as the body left it. *)
Theorem C22_with_lock_exception_keeps {A} f timeout length offset whence shared (body : M A)
    w len off w1 e w2 :
  raw_lock_file f timeout length offset whence shared w = (Ok (len, off), w1) ->
  body w1 = (Err e, w2) ->
  raw_with_lock f timeout length offset whence shared body w = (Err e, w2).
Proof. intros Hl Hb. unfold raw_with_lock, bind. now rewrite Hl, Hb. Qed.

(** So the advertised guarantee is false: a block that raises keeps the lock. *)
Theorem C22_context_manager_releases_refuted :
  exists f w w1 (body : M unit) e w',
    raw_lock_file f PNone PNone PNone 0 SNone w = (Ok (None, 0), w1)
    /\ mine w (uid_of f) (fd_of f) = []
    /\ raw_with_lock f PNone PNone PNone 0 SNone body w = (Err e, w')
    /\ mine w' (uid_of f) (fd_of f) <> [] /\ process_holds w' (uid_of f) false 0.
Proof.
  destruct (demo_open "f" true true false (demo [1; 2] [] [] [])) as [f w] eqn:E.
  exists f, w, (snd (raw_lock_file f PNone PNone PNone 0 SNone w)), (raise (EUser 7)), (EUser 7),
    (snd (raw_lock_file f PNone PNone PNone 0 SNone w)).
  vm_compute in E. injection E as <- <-.
  split; [vm_compute; reflexivity|]. split; [vm_compute; reflexivity|].
  split; [vm_compute; reflexivity|]. split; [vm_compute; discriminate|].
  vm_compute. eexists. split; [left; reflexivity|]. repeat split; discriminate.
Qed.

(** * Examples *)
Definition tick (d : Z) : envev := mkEv d None None None.
Definition free_kernel (d : Z) : envev := mkEv d (Some []) None None.
(** Process 200 holds the whole file. *)
Definition taken : klocks := [mkSeg 200 (1, 10) false 0 None].
Definition opened (env : list envev) (kern : klocks) : rawio * world :=
  demo_open "f" true true false (demo [1; 2; 3] [] env kern).
Definition try_lock (timeout : parg) (env : list envev) (kern : klocks) :=
  let '(f, w) := opened env kern in
  let '(r, w') := raw_lock_file f timeout PNone PNone 0 SNone w in
  (r, w_clock w', List.length (w_env w'), mine w' (1, 10) 3, List.length (w_kern w')).

(** The lock is refused until the deadline: LockingException at the first attempt
    after 5 seconds (clock 6), nothing recorded, the other lock still there. *)
Example ex_timeout : try_lock (PInt 5) [tick 2; tick 2; tick 2; tick 2] taken
  = (Err (ELocking EAGAIN), 6, 1%nat, [], 1%nat).
Proof. vm_compute. reflexivity. Qed.
(** Released meanwhile: obtained at the second attempt. *)
Example ex_released : try_lock (PInt 5) [free_kernel 2; tick 2] taken
  = (Ok (None, 0), 2, 1%nat, [mkLock 3 false 0 None], 1%nat).
Proof. vm_compute. reflexivity. Qed.
(** timeout=0: no waiting. *)
Example ex_zero : try_lock (PInt 0) [free_kernel 2] taken = (Err (ELocking EAGAIN), 0, 1%nat, [], 1%nat).
Proof. vm_compute. reflexivity. Qed.
(** Without timeout it waits inside the kernel. *)
Example ex_blocking : try_lock PNone [tick 100; tick 100] taken
  = (Err EHang, 200, 0%nat, [mkLock 3 false 0 None], 1%nat).
Proof. vm_compute. reflexivity. Qed.
Example ex_blocking_ok : try_lock PNone [tick 100; free_kernel 1] taken
  = (Ok (None, 0), 101, 0%nat, [mkLock 3 false 0 None], 1%nat).
Proof. vm_compute. reflexivity. Qed.
(** Enforced timeout (option enforced_locking_timeout_value = 3): RuntimeError. *)
Example ex_enforced :
  let '(f, w) := demo_open "f" true true false (set_opts (demo [1] [] [tick 2; tick 2; tick 2] taken) (mkOpt (Some 3) 1)) in
  let '(r, w') := raw_lock_file f PNone PNone PNone 0 SNone w in (r, w_clock w', mine w' (1, 10) 3)
  = (Err ERuntime, 4, []).
Proof. vm_compute. reflexivity. Qed.

(** The hypotheses of the timeout theorems hold in the demo world. *)
Example ex_proper :
  let '(f, w) := opened [tick 2] taken in
  proper_call f w PNone PNone 0 false 0 /\ busy w (uid_of f) (fd_of f) 0 None false
  /\ (let '(f, w) := opened [tick 2] [] in
      proper_call f w (PInt 10) (PInt (-1)) 2 true 2 /\ ~ busy w (uid_of f) (fd_of f) 2 (Some 10) true).
Proof.
  destruct (opened [tick 2] taken) as [f w] eqn:E. destruct (opened [tick 2] []) as [f2 w2] eqn:E2.
  vm_compute in E. injection E as <- <-. vm_compute in E2. injection E2 as <- <-.
  split; [|split; [|split]].
  - constructor; try reflexivity; try discriminate; auto.
    + intros [X|(z & X & _)]; discriminate.
    + left. split; reflexivity.
    + constructor; [|discriminate|intros e []]. eexists. split; [reflexivity|]. split; reflexivity.
    + cbn. intros o i [= <-] [= <-]. split; [reflexivity|]. cbn. lia.
    + intros (lk & b & [] & _).
  - right. exists (mkSeg 200 (1, 10) false 0 None), 0. cbn. split; [auto|]. split; [discriminate|].
    split; [reflexivity|]. split; [intros [? _]; discriminate|]. unfold in_range, covers; cbn. lia.
  - constructor; try reflexivity; try discriminate; auto.
    + intros [X|(z & [= <-] & X)]; [discriminate|lia].
    + right. eexists. eexists. split; [reflexivity|]. split; [reflexivity|]. right. split; reflexivity.
    + constructor; [|discriminate|intros e []]. eexists. split; [reflexivity|]. split; reflexivity.
    + cbn. intros o i [= <-] [= <-]. split; [reflexivity|]. cbn. lia.
    + intros (lk & b & [] & _).
  - intros [(lk & b & [] & _)|(s & b & [] & _)].
Qed.

(** Offsets from the end are resolved at call time: the file has 3 bytes. *)
Example ex_from_end :
  let '(f, w) := opened [] [] in
  fst (raw_lock_file f PNone (PInt 10) (PInt (-1)) 2 (SBool true) w) = Ok (Some 10, 2).
Proof. vm_compute. reflexivity. Qed.
Example ex_reject :
  let '(f, w) := opened [] [] in raw_lock_file f (PInt (-1)) PNone PNone 0 SNone w = (Err EBadValue, w).
Proof. vm_compute. reflexivity. Qed.

(** A block left normally. *)
Example ex_with_ok :
  let '(f, w) := opened [] [] in
  let '(r, w') := raw_with_lock f PNone PNone PNone 0 (SBool false) (raw_write f [9]) w in
  (r, mine w' (1, 10) 3, w_kern w', content w' (1, 10)) = (Ok (Some 1), [], [], [9; 2; 3]).
Proof. vm_compute. reflexivity. Qed.

Print Assumptions C19_failed_lock_no_trace.
Print Assumptions C19_failed_lock_tables_unchanged.
Print Assumptions C20_lock_timeout.
Print Assumptions C20_lock_blocking.
Print Assumptions C20_lock_enforced_timeout.
Print Assumptions C20_lock_result_prefix.
Print Assumptions C20_lock_available.
Print Assumptions C20_lock_timeout_zero.
Print Assumptions C21_lock_file_rejects.
Print Assumptions C21_lock_file_wrong_kind.
Print Assumptions C21_lock_file_closed.
Print Assumptions C21_lock_file_default_share.
Print Assumptions C21_lock_file_obtains.
Print Assumptions C22_with_lock_releases_partial.
Print Assumptions C22_with_lock_exception_keeps.
Print Assumptions C22_context_manager_releases_refuted.
