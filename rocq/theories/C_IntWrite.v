(** Interrupted writes (C107). *)
From Coq Require Import ZArith Ascii String List Bool Lia.
From Verif Require Import M_Base M_Modes M_Registry M_Kernel M_World M_Raw M_Buffered M_IntWrite S_Bytes S_Raw S_Buffered S_Demo S_IntWrite
  P_Bytes P_Raw P_Buffered C_Buffered C_SharedLog.
Import ListNotations.
Open Scope Z_scope.
Open Scope list_scope.

(** * Repeats *)
Lemma repeats_app k l s x : repeats k l s -> repeats k (l ++ x) (s ++ x).
Proof.
  intros H. induction H as [k l|k l a b c H IH]; [constructor|].
  rewrite <- !app_assoc in *. now apply RP_again.
Qed.
Lemma repeats_more k k' l s : repeats k l s -> (k <= k')%nat -> repeats k' l s.
Proof.
  intros H. revert k'. induction H as [k l|k l a b c H IH]; intros k' Hk; [constructor|].
  destruct k' as [|k']; [lia|]. apply RP_again, IH. lia.
Qed.

(** * flush *)
Section Flush.
Variables (f : rawio) (size : Z) (u : uid) (c0 : list Z).
Notation J := (J f size u).

(** Written as far as the buffer says, or some bytes are written that are still in the buffer. *)
Definition flushed (G W : list Z) (r : res unit) (b' : bstate) : Prop :=
  (exists j, J b' (c0 ++ G ++ firstn j W) /\ b_wbuf b' = skipn j W /\ (r = Ok tt -> b_wbuf b' = []))
  \/ r = Err HANDLER /\ exists i j, J b' (c0 ++ G ++ firstn i W ++ firstn j (skipn i W)) /\ b_wbuf b' = skipn i W.

Lemma flush_loop_flushed : forall fuel n b r n' b' G, J b (c0 ++ G) -> flush_loop_i fuel (n, b) = (r, (n', b')) ->
  flushed G (b_wbuf b) r b'.
Proof.
  induction fuel as [|fuel IH]; intros n b r n' b' G HJ E; cbn [flush_loop_i] in E.
  { injection E as <- _ <-. left. exists O. cbn. rewrite app_nil_r. repeat split; auto; try apply HJ. discriminate. }
  unfold bind at 1, instr at 1 in E. cbn [fst snd] in E. destruct n as [|n].
  { injection E as <- _ <-. left. exists O. cbn. rewrite app_nil_r. repeat split; auto; try apply HJ. discriminate. }
  cbn [snd] in E. destruct (b_wbuf b) as [|z W'] eqn:EW.
  { injection E as <- _ <-. left. exists O. cbn. rewrite app_nil_r. repeat split; auto; try apply HJ. }
  rewrite <- EW in *. clear W' z EW. destruct HJ as (R & S & HJ). unfold bind at 1, run_b at 1, on_raw in E. cbn [fst snd] in E. rewrite R in E.
  destruct (raw_write f (b_wbuf b) (b_w b)) as [r1 w] eqn:Er.
  destruct (raw_write_J _ _ _ _ _ _ _ HJ Er) as [(m & -> & Hm & Jm)|[Hr Jn]].
  - unfold bind at 1, instr at 1 in E. cbn [fst snd] in E. destruct n as [|n].
    { injection E as <- _ <-. right. split; [reflexivity|]. exists O, (Z.to_nat m). cbn. split; [|reflexivity].
      repeat split; auto. cbn. rewrite <- app_assoc in Jm. exact Jm. }
    destruct ((Z.of_nat (List.length (b_wbuf b)) <? m) || (m <? 0)) eqn:Eb.
    { exfalso. unfold len in Hm. apply orb_true_iff in Eb. destruct Eb as [Eb|Eb]; apply Z.ltb_lt in Eb; lia. }
    unfold bind at 1, run_b at 1 in E. cbn [fst snd] in E.
    assert (HJ1 : J (set_wbuf (set_world b w) (skipn (Z.to_nat m) (b_wbuf (set_world b w)))) (c0 ++ G ++ firstn (Z.to_nat m) (b_wbuf b))).
    { repeat split; auto. cbn. rewrite <- app_assoc in Jm. exact Jm. }
    pose proof (IH _ _ _ _ _ _ HJ1 E) as X. cbn [set_wbuf set_world b_wbuf] in X. clear E IH.
    set (W := b_wbuf b) in *.
    assert (Q : forall j, firstn (Z.to_nat m) W ++ firstn j (skipn (Z.to_nat m) W) = firstn (Z.to_nat m + j) W).
    { intros j. rewrite <- (firstn_skipn (Z.to_nat m) W) at 3. rewrite firstn_app, firstn_firstn.
      rewrite (Nat.min_r (Z.to_nat m + j) (Z.to_nat m)) by lia. f_equal. f_equal. unfold len in Hm. rewrite firstn_length. lia. }
    destruct X as [(j & J1 & W1 & Z1)|(-> & i & j & J1 & W1)].
    + left. exists (Z.to_nat m + j)%nat. rewrite <- app_assoc, Q in J1. rewrite skipn_skipn in W1.
      split; [exact J1|]. split; [|exact Z1]. rewrite W1. f_equal; lia.
    + right. split; [reflexivity|]. exists (Z.to_nat m + i)%nat, j. 
      assert (Q2 : skipn i (skipn (Z.to_nat m) W) = skipn (Z.to_nat m + i) W) by (rewrite skipn_skipn; f_equal; lia).
      rewrite Q2 in J1, W1. split; [|exact W1].
      rewrite <- Q. rewrite <- !app_assoc in *. exact J1.
  - assert (X : exists r2 n2, r = r2 /\ r2 <> Ok tt /\ (n2, set_world b w) = (n', b')).
    { destruct r1 as [[m|]|e]; [exfalso; now apply (Hr m)|..].
      - unfold bind, instr in E. cbn [fst snd] in E. destruct n; injection E as <- <- <-; eexists _, _; (split; [reflexivity|]; split; [discriminate|reflexivity]).
      - injection E as <- <- <-. eexists _, _; (split; [reflexivity|]; split; [discriminate|reflexivity]). }
    destruct X as (r2 & n2 & <- & Hn & X). injection X as _ <-. left. exists O. cbn. rewrite app_nil_r. split; [repeat split; auto|]. split; [reflexivity|].
    intros X; contradiction.
Qed.
Lemma flush_flushed n b r n' b' G : J b (c0 ++ G) -> flush_i (n, b) = (r, (n', b')) -> flushed G (b_wbuf b) r b'.
Proof.
  intros HJ E. assert (Stay : forall r, r <> Ok tt -> flushed G (b_wbuf b) r b).
  { intros r1 H1. left. exists O. cbn. rewrite app_nil_r. repeat split; auto; try apply HJ. intros X; contradiction. }
  unfold flush_i, bind at 1, instr at 1 in E. cbn [fst snd] in E. destruct n as [|n].
  { injection E as <- _ <-. apply Stay. discriminate. }
  unfold bind at 1, run_b at 1, b_check_closed in E. cbn [fst snd] in E. destruct (f_closed (b_raw b)).
  { injection E as <- _ <-. apply Stay. discriminate. }
  eapply flush_loop_flushed; eauto.
Qed.

(** Nothing raised by the flush itself is the handler's but an interruption; what may be raised is
    not a would-block that has taken something. *)
Lemma flush_blocking n b e n' b' : flush_i (n, b) = (Err (EBlocking e), (n', b')) -> e = 0.
Proof.
  unfold flush_i, bind at 1, instr at 1. cbn [fst snd]. destruct n as [|n]; [discriminate|].
  unfold bind at 1, run_b at 1, b_check_closed. cbn [fst snd]. destruct (f_closed (b_raw b)); [discriminate|].
  cbn [snd]. generalize (Datatypes.S (List.length (b_wbuf b))) as fuel. intros fuel. revert n b. induction fuel as [|fuel IH]; intros n b; cbn [flush_loop_i].
  { unfold raise. intros [=]. }
  unfold bind at 1, instr at 1. cbn [fst snd]. destruct n as [|n]; [discriminate|]. cbn [snd].
  destruct (b_wbuf b) as [|z W'] eqn:EW; [discriminate|]. rewrite <- EW. unfold bind at 1, run_b at 1, on_raw. cbn [fst snd].
  destruct (raw_write (b_raw b) (b_wbuf b) (b_w b)) as [r1 w] eqn:Er. destruct r1 as [[m|]|e1].
  - unfold bind at 1, instr at 1. cbn [fst snd]. destruct n as [|n]; [discriminate|]. destruct (_ || _); [discriminate|].
    unfold bind at 1, run_b at 1. cbn [fst snd]. apply IH.
  - unfold bind at 1, instr at 1. cbn [fst snd]. destruct n as [|n]; [discriminate|]. unfold raise. now intros [= <- _ _].
  - intros [= -> _ _]. exfalso. clear - Er. unfold raw_write, bind, check_closed, check_writable, bind, check_closed in Er.
    destruct (f_closed (b_raw b)); [discriminate|]. cbn [ret] in Er. destruct (f_writable (b_raw b)); [|discriminate]. cbn [ret] in Er.
    unfold inner_write in Er. destruct (sys_write (fd_of (b_raw b)) (b_wbuf b) (b_w b)) as [r1 w1] eqn:E.
    destruct r1 as [m|e1].
    + destruct (_ && _); [discriminate Er|]. destruct (_ || _); discriminate Er.
    + assert (X : exists m, e1 = EOS m).
      { unfold sys_write, bind in E. unfold get_fd in E.
        destruct (w_fds (b_w b) (fd_of (b_raw b))) as [o|]; [|injection E as <- _; eauto].
        destruct (w_inodes (b_w b) (o_uid o)) as [i|]; [|injection E as <- _; eauto].
        destruct (negb (o_wr o)); [injection E as <- _; eauto|]. rewrite next_io_eq in E.
        destruct (hd IoFull (w_io (b_w b))); [| |injection E as <- _; eauto]; destruct (n_kind i); discriminate E. }
      destruct X as (m & ->). destruct (m =? EAGAIN); discriminate Er.
Qed.

(** * Calls *)
Definition one {A} (r : res A) : nat := if interrupted r then 1 else 0.
Definition accounts (k : nat) (l : list Z) (b : bstate) : Prop :=
  exists G, J b (c0 ++ G) /\ repeats k l (G ++ b_wbuf b).

(** A flush keeps the account, up to one repetition if it is interrupted. *)
Lemma flush_accounts k l n b r n' b' : accounts k l b -> flush_i (n, b) = (r, (n', b')) ->
  accounts (k + one r) l b' /\ (r = Ok tt -> b_wbuf b' = []).
Proof.
  intros (G & HJ & Hr) E. destruct (flush_flushed _ _ _ _ _ _ HJ E) as [(j & J1 & W1 & Z1)|(-> & i & j & J1 & W1)].
  - split; [|exact Z1]. exists (G ++ firstn j (b_wbuf b)). split; [exact J1|]. rewrite W1, <- app_assoc, firstn_skipn.
    eapply repeats_more; [exact Hr|lia].
  - split; [|discriminate]. cbn [one interrupted HANDLER]. exists (G ++ firstn i (b_wbuf b) ++ firstn j (skipn i (b_wbuf b))). split; [exact J1|]. rewrite W1.
    rewrite Nat.add_1_r. replace ((G ++ firstn i (b_wbuf b) ++ firstn j (skipn i (b_wbuf b))) ++ skipn i (b_wbuf b))
      with ((G ++ firstn i (b_wbuf b)) ++ firstn j (skipn i (b_wbuf b)) ++ firstn j (skipn i (b_wbuf b)) ++ skipn j (skipn i (b_wbuf b))).
    + apply RP_again. rewrite firstn_skipn, <- app_assoc, firstn_skipn. exact Hr.
    + rewrite firstn_skipn, <- !app_assoc. reflexivity.
Qed.

Lemma call_accounts k l c n b r b' : 0 < size -> accounts k l b -> run_icall c n b = (r, b') ->
  exists x, took c r x /\ accounts (k + one r) (l ++ x) b'.
Proof.
  intros Hsz HA E. destruct c as [d|].
  2:{ exists []. split; [constructor|]. rewrite app_nil_r. cbn [run_icall] in E.
      destruct (flush_i (n, b)) as [[v|e] [n1 b1]] eqn:Ef; injection E as <- <-;
        destruct (flush_accounts _ _ _ _ _ _ _ HA Ef) as [HA1 _]; exact HA1. }
  assert (None_ : forall e b1, accounts (k + one (@Err Z e)) l b1 -> (forall m, e <> EBlocking m) \/ e = EBlocking 0 ->
            exists x, took (IWrite d) (Err e) x /\ accounts (k + one (@Err Z e)) (l ++ x) b1).
  { intros e b1 HA1 He. exists []. rewrite app_nil_r. split; [|exact HA1]. destruct He as [He| ->]; [now constructor|].
    apply (TO_block d 0). unfold len. lia. }
  assert (More : forall k1 b1, accounts k l b1 -> (k <= k1)%nat -> accounts k1 l b1).
  { intros k1 b1 (G & H1 & H2) Hk. exists G. split; [exact H1|]. eapply repeats_more; eauto. }
  cbn [run_icall] in E. unfold write_i in E.
  unfold bind at 1, instr at 1 in E. cbn [fst snd] in E. destruct n as [|n].
  { injection E as <- <-. apply None_; [apply More; [exact HA|lia]|left; discriminate]. }
  unfold bind at 1, run_b at 1, b_check_closed at 1 in E. cbn [fst snd] in E. destruct (f_closed (b_raw b)).
  { injection E as <- <-. apply None_; [apply More; [exact HA|lia]|left; discriminate]. }
  unfold bind at 1 in E. cbn [fst snd] in E.
  assert (Bs : b_size b = size) by (destruct HA as (G & (_ & S & _) & _); exact S). rewrite Bs in E.
  match type of E with context [match ?x with (_, _) => _ end] => match x with (if _ then _ else _) => destruct x as [r1 [n1 b1]] eqn:E1 end end.
  assert (A1 : match r1 with Ok _ => accounts k l b1 /\ len (b_wbuf b1) <= size
                           | Err e => accounts (k + one (@Err Z e)) l b1 /\ ((forall m, e <> EBlocking m) \/ e = EBlocking 0) end).
  { destruct (size <? Z.of_nat (List.length (b_wbuf b))) eqn:Es.
    - destruct (flush_accounts _ _ _ _ _ _ _ HA E1) as [H1 H2]. destruct r1 as [[]|e].
      + split; [replace k with (k + 0)%nat by lia; exact H1|]. rewrite (H2 eq_refl). cbn. lia.
      + split; [exact H1|]. destruct e; try (left; discriminate). right. f_equal. eapply flush_blocking; eauto.
    - injection E1 as <- _ <-. split; [exact HA|]. apply Z.ltb_ge in Es. exact Es. }
  destruct r1 as [[]|e].
  2:{ injection E as <- <-. now apply None_. }
  destruct A1 as [A1 Hfit]. unfold bind at 1, instr at 1 in E. cbn [fst snd] in E. destruct n1 as [|n1].
  { injection E as <- <-. apply None_; [apply More; [exact A1|lia]|left; discriminate]. }
  unfold bind at 1, run_b at 1 in E. cbn [fst snd] in E.
  set (b2 := set_wbuf b1 (b_wbuf b1 ++ d)) in E.
  assert (A2 : accounts k (l ++ d) b2).
  { destruct A1 as (G & H1 & H2). exists G. split; [exact H1|]. cbn. rewrite app_assoc. now apply repeats_app. }
  assert (All : forall e b3, accounts (k + one (@Err Z e)) (l ++ d) b3 -> (forall m, e <> EBlocking m) ->
            exists x, took (IWrite d) (Err e) x /\ accounts (k + one (@Err Z e)) (l ++ x) b3).
  { intros e b3 HA3 He. exists d. split; [now apply TO_all|exact HA3]. }
  unfold bind at 1, instr at 1 in E. cbn [fst snd] in E. destruct n1 as [|n1].
  { injection E as <- <-. apply All; [|discriminate]. destruct A2 as (G & H1 & H2). exists G. split; [exact H1|]. eapply repeats_more; eauto. lia. }
  cbn [fst snd] in E. assert (Bs2 : b_size b2 = size) by (destruct A2 as (G & (_ & S & _) & _); exact S). rewrite Bs2 in E.
  assert (Whole : forall b3, accounts k (l ++ d) b3 ->
            exists x, took (IWrite d) (Ok (Z.of_nat (List.length d))) x /\ accounts (k + one (Ok (Z.of_nat (List.length d)))) (l ++ x) b3).
  { intros b3 HA3. exists d. split; [apply (TO_write d)|]. cbn. replace (k + 0)%nat with k by lia. exact HA3. }
  destruct (size <? Z.of_nat (List.length (b_wbuf b2))) eqn:Es2.
  2:{ injection E as <- <-. now apply Whole. }
  destruct (flush_i (n1, b2)) as [r3 [n3 b3]] eqn:E3.
  destruct (flush_accounts _ _ _ _ _ _ _ A2 E3) as [A3 Z3]. destruct r3 as [[]|e].
  { injection E as <- <-. apply Whole. replace k with (k + 0)%nat by lia. exact A3. }
  destruct e; try (injection E as <- <-; apply All; [exact A3|discriminate]).
  (* it would block *)
  unfold bind, instr in E. cbn [fst snd] in E. destruct n3 as [|n3].
  { injection E as <- <-. apply All; [|discriminate]. destruct A3 as (G & H1 & H2). exists G. split; [exact H1|]. eapply repeats_more; eauto. cbn. lia. }
  cbn [fst snd] in E. assert (Bs3 : b_size b3 = size) by (destruct A3 as (G & (_ & S & _) & _); exact S). rewrite Bs3 in E.
  destruct (size <? Z.of_nat (List.length (b_wbuf b3))) eqn:Es3.
  2:{ injection E as <- <-. apply Whole. replace k with (k + 0)%nat by lia. exact A3. }
  injection E as <- <-. apply Z.ltb_lt in Es3.
  (* the buffer is cut: the end of [d] is not taken *)
  destruct A1 as (G & H1 & H2).
  assert (HJ2 : J b2 (c0 ++ G)) by exact H1.
  destruct (flush_flushed _ _ _ _ _ _ HJ2 E3) as [(j & J3 & W3 & _)|(X & _)]; [|discriminate].
  cbn [b2 set_wbuf b_wbuf] in J3, W3. set (W := b_wbuf b1) in *.
  pose proof (f_equal (@List.length Z) W3) as L3. rewrite skipn_length, app_length in L3. unfold len in Hfit.
  set (m := Z.of_nat (List.length d) - (Z.of_nat (List.length (b_wbuf b3)) - size)).
  assert (Hm : 0 <= m <= len d) by (unfold m, len; lia).
  exists (firstn (Z.to_nat m) d). split; [now apply TO_block|]. cbn [one interrupted]. rewrite Nat.add_0_r.
  exists (G ++ firstn j (W ++ d)). split; [repeat split; apply J3|]. cbn [set_wbuf b_wbuf].
  rewrite W3. replace ((G ++ firstn j (W ++ d)) ++ firstn (Z.to_nat size) (skipn j (W ++ d)))
    with ((G ++ W) ++ firstn (Z.to_nat m) d); [now apply repeats_app|].
  rewrite <- !app_assoc. f_equal.
  assert (Q : forall (i : nat) (x : list Z), (i <= List.length x)%nat -> forall p, firstn i x ++ firstn p (skipn i x) = firstn (i + p) x).
  { intros i x Hi p. rewrite <- (firstn_skipn i x) at 3. rewrite firstn_app, firstn_firstn.
    rewrite (Nat.min_r (i + p) i) by lia. f_equal. f_equal. rewrite firstn_length. lia. }
  assert (Hj : (j <= List.length (W ++ d))%nat) by (rewrite app_length; lia).
  rewrite (Q j (W ++ d) Hj). rewrite firstn_app. f_equal.
  - symmetry. apply firstn_all2. lia.
  - f_equal. unfold m. lia.
Qed.
Lemma calls_account : forall cs k l b log b', 0 < size -> accounts k l b -> run_icalls cs b = (log, b') ->
  exists a, all_took log a /\ accounts (k + interruptions log) (l ++ a) b'.
Proof.
  induction cs as [|[c n] cs IH]; intros k l b log b' Hsz HA E; cbn [run_icalls] in E.
  - injection E as <- <-. exists []. rewrite app_nil_r. cbn. rewrite Nat.add_0_r. split; [constructor|exact HA].
  - destruct (run_icall c n b) as [r b1] eqn:E1. destruct (run_icalls cs b1) as [log1 b2] eqn:E2. injection E as <- <-.
    destruct (call_accounts _ _ _ _ _ _ _ Hsz HA E1) as (x & T1 & A1). destruct (IH _ _ _ _ _ Hsz A1 E2) as (a & T2 & A2).
    exists (x ++ a). split; [now constructor|]. rewrite app_assoc. unfold interruptions in *. cbn [filter snd].
    unfold one in A2. destruct (interrupted r); cbn [List.length].
    + rewrite Nat.add_succ_r, <- Nat.add_succ_l, <- Nat.add_1_r. exact A2.
    + rewrite Nat.add_0_r in A2. exact A2.
Qed.
End Flush.

(** * C107 *)

(** A program writes to a stream in append mode; handlers interrupt calls at any instruction, the
    program goes on; system calls fail or write less than asked.  At any moment the file is what
    it was followed by [s], and with what waits in the buffer this is the bytes that the calls
    took, in order, none lost: but each interruption may have repeated a piece at once. *)
Theorem C107_nothing_lost_partial f size w u c0 cs log b' :
  0 < size -> append_stream f w u c0 ->
  run_icalls cs (fresh f size w) = (log, b') ->
  exists a s, holds_file (b_w b') u (c0 ++ s) /\ all_took log a /\ repeats (interruptions log) a (s ++ b_wbuf b').
Proof.
  intros Hs [(o & Ho & Hu & Ha) (i & Hi & Hk & Hd)] E.
  assert (HA : accounts f size u c0 0 [] (fresh f size w)).
  { exists []. split; [|constructor]. repeat split; auto. rewrite app_nil_r. exists o, i. auto 8. }
  destruct (calls_account f size u c0 cs _ _ _ _ _ Hs HA E) as (a & T1 & G & (_ & _ & o' & i' & _ & _ & _ & Hi' & _ & Hd') & R).
  exists a, G. split; [exists i'; auto|]. split; [exact T1|exact R].
Qed.

(** In particular, without interruption nothing is repeated. *)
Theorem C107_uninterrupted f size w u c0 cs log b' :
  0 < size -> append_stream f w u c0 ->
  run_icalls cs (fresh f size w) = (log, b') -> Forall (fun c => interrupted (snd c) = false) log ->
  exists a s, holds_file (b_w b') u (c0 ++ s) /\ all_took log a /\ a = s ++ b_wbuf b'.
Proof.
  intros Hs Hst E Hn. destruct (C107_nothing_lost_partial _ _ _ _ _ _ _ _ Hs Hst E) as (a & s & H1 & H2 & H3).
  exists a, s. split; [exact H1|]. split; [exact H2|].
  assert (Z : interruptions log = O).
  { unfold interruptions. clear - Hn. induction Hn as [|c l H1 H2 IH]; [reflexivity|]. cbn. rewrite H1. exact IH. }
  rewrite Z in H3. inversion H3; auto.
Qed.

(** The instructions are those of the calls of M_Buffered: a call that ends with instructions to
    spare does what the call without handler does. *)
Definition agrees {A} (m : T A) (m' : B A) : Prop :=
  forall n b r n' b', m (n, b) = (r, (n', b')) -> (n' <= n)%nat /\ (n' <> O -> m' b = (r, b')).
Lemma agrees_run {A} (m : B A) : agrees (run_b m) m.
Proof. intros n b r n' b'. unfold run_b. cbn [fst snd]. destruct (m b) as [r1 b1]. intros [= -> -> ->]. auto. Qed.
Lemma agrees_raise {A} e : agrees (raise e : T A) (raise e).
Proof. intros n b r n' b' [= <- <- <-]. auto. Qed.
Lemma agrees_bind {A C} (m : T A) m' (k : A -> T C) k' : agrees m m' -> (forall a, agrees (k a) (k' a)) -> agrees (bind m k) (bind m' k').
Proof.
  intros Hm Hk n b r n' b'. unfold bind. destruct (m (n, b)) as [[a|e] [n1 b1]] eqn:E.
  - destruct (Hm _ _ _ _ _ E) as [L1 S1]. intros E2. destruct (Hk a _ _ _ _ _ E2) as [L2 S2].
    split; [lia|]. intros Hn. rewrite (S1 ltac:(lia)). auto.
  - destruct (Hm _ _ _ _ _ E) as [L1 S1]. intros [= <- <- <-]. split; [exact L1|]. intros Hn. now rewrite (S1 Hn).
Qed.
Lemma agrees_instr {C} (k : T C) k' : agrees k k' -> agrees (bind instr (fun _ => k)) k'.
Proof.
  intros Hk n b r n' b'. unfold bind, instr. cbn [fst snd]. destruct n as [|n].
  - intros [= <- <- <-]. split; [lia|congruence].
  - intros E. destruct (Hk _ _ _ _ _ E). split; [lia|auto].
Qed.
Lemma agrees_state {A} (m : T A) (m' : B A) : (forall n b r n' b', m (n, b) = (r, (n', b')) -> (n' <= n)%nat /\ (n' <> O -> m' b = (r, b'))) -> agrees m m'.
Proof. auto. Qed.
Lemma agrees_flush_loop : forall fuel, agrees (flush_loop_i fuel) (flush_loop fuel).
Proof.
  induction fuel as [|fuel IH]; cbn [flush_loop_i flush_loop]; [apply agrees_raise|].
  apply agrees_instr. intros n b r n' b'. cbn [snd]. destruct (b_wbuf b) as [|z W].
  { intros [= <- <- <-]. auto. }
  revert n b r n' b'. apply agrees_bind; [apply agrees_run|]. intros [m|]; apply agrees_instr.
  - destruct (_ || _); [apply agrees_raise|]. apply agrees_bind; [apply agrees_run|auto].
  - apply agrees_raise.
Qed.
Lemma agrees_flush : agrees flush_i flush_unlocked.
Proof.
  unfold flush_i, flush_unlocked. apply agrees_instr, agrees_bind; [apply agrees_run|]. intros _ n b. cbn [snd].
  apply agrees_flush_loop.
Qed.
Theorem C107_same_calls d n b r n' b' : write_i d (n, b) = (r, (n', b')) -> n' <> O -> writer_write d b = (r, b').
Proof.
  assert (X : agrees (write_i d) (writer_write d)).
  { unfold write_i, writer_write. apply agrees_instr, agrees_bind; [apply agrees_run|]. intros _. apply agrees_bind.
    { intros m c. cbn [snd]. destruct (_ <? _); [apply agrees_flush|]. intros r1 n1 b1 [= <- <- <-]. auto. }
    intros _. apply agrees_instr, agrees_bind; [apply agrees_run|]. intros _. apply agrees_instr.
    intros m c r1 n1 b1. cbn [fst snd]. destruct (_ <? _); [|intros [= <- <- <-]; auto].
    destruct (flush_i (m, c)) as [[v|e] [n2 b2]] eqn:Ef; destruct (agrees_flush _ _ _ _ _ Ef) as [L S].
    - intros [= <- <- <-]. split; [exact L|]. intros Hn. now rewrite (S Hn).
    - destruct e; try (intros [= <- <- <-]; split; [exact L|]; intros Hn; now rewrite (S Hn)).
      unfold bind, instr. cbn [fst snd]. destruct n2 as [|n2]; [intros [= <- <- <-]; split; [lia|congruence]|].
      rewrite (S ltac:(lia)). cbn [fst snd]. destruct (_ <? _); intros [= <- <- <-]; (split; [lia|auto]). }
  intros E. exact (proj2 (X _ _ _ _ _ E)).
Qed.

(** * What goes wrong *)

(** The handler raises between the return of raw.write and [del]: what was written is written
    again. *)
Definition log_file : rawio * world := demo_open "f" false true true (demo [9] [] [] []).
Theorem C107_repeated_refuted :
  ~ (forall f size w u c0 cs log b', 0 < size -> append_stream f w u c0 -> run_icalls cs (fresh f size w) = (log, b') ->
       exists a s, holds_file (b_w b') u (c0 ++ s) /\ all_took log a /\ a = s ++ b_wbuf b').
Proof.
  intros H. destruct log_file as [f w] eqn:Ed. 
  set (cs := [(IWrite [1; 2], 99%nat); (IFlush, 2%nat); (IFlush, 99%nat)]).
  specialize (H f 10 w (1, 10) [9] cs (fst (run_icalls cs (fresh f 10 w))) (snd (run_icalls cs (fresh f 10 w)))).
  vm_compute in Ed. injection Ed as <- <-. destruct H as (a & s & (i & Hi & Hd) & T1 & E).
  - lia.
  - constructor; eexists; (split; [reflexivity|]); split; reflexivity.
  - now destruct (run_icalls _ _).
  - vm_compute in Hi. injection Hi as <-. cbn [n_data] in Hd. vm_compute in T1.
    match type of E with a = s ++ ?x => assert (Y : x = []) by (vm_compute; reflexivity); rewrite Y, app_nil_r in E end. subst a. injection Hd as <-.
    inversion T1 as [|c1 r1 x1 l1 a1 K1 T2 E1 E2]; subst. inversion T2 as [|c2 r2 x2 l2 a2 K2 T3 E3 E4]; subst.
    inversion T3 as [|c3 r3 x3 l3 a3 K3 T4 E5 E6]; subst. inversion T4; subst. inversion K2; subst. inversion K3; subst.
    inversion K1; subst. discriminate.
Qed.

(** * Examples *)
(** Interrupted before raw.write: nothing is lost or repeated.  After it: repeated.  After [del]: not. *)
Definition outcome (n : nat) : list (res Z) * list Z :=
  let '(f, w) := log_file in
  let '(log, b) := run_icalls [(IWrite [1; 2], 99%nat); (IFlush, n); (IFlush, 99%nat)] (fresh f 10 w) in
  (map snd log, content (b_w b) (1, 10)).
Example before_write : outcome 1 = ([Ok 2; Err HANDLER; Ok 0], [9; 1; 2]).
Proof. vm_compute. reflexivity. Qed.
Example after_write : outcome 2 = ([Ok 2; Err HANDLER; Ok 0], [9; 1; 2; 1; 2]).
Proof. vm_compute. reflexivity. Qed.
Example after_del : outcome 3 = ([Ok 2; Err HANDLER; Ok 0], [9; 1; 2]).
Proof. vm_compute. reflexivity. Qed.
(** A write() of more than the buffer holds, in two system calls, interrupted after the second. *)
Example write_interrupted :
  (let '(f, w) := demo_open "f" false true true (demo [9] [IoFull; IoShort 2; IoFull] [] []) in
   let '(log, b) := run_icalls [(IWrite [1; 2; 3; 4], 7%nat); (IFlush, 99%nat)] (fresh f 3 w) in
   (map snd log, content (b_w b) (1, 10))) = ([Err HANDLER; Ok 0], [9; 1; 2; 3; 4; 3; 4]).
Proof. vm_compute. reflexivity. Qed.

Print Assumptions C107_nothing_lost_partial.
Print Assumptions C107_uninterrupted.
Print Assumptions C107_same_calls.
Print Assumptions C107_repeated_refuted.
