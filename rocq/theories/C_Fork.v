(** Final theorems of C88: streams inherited through fork(). *)
From Coq Require Import ZArith Ascii String List Bool Lia.
From Verif Require Import M_Base M_Modes M_Registry M_Kernel M_World M_Raw M_Buffered M_Fork S_Bytes S_Raw S_Locks S_LockFile
  S_Open S_Buffered S_Append S_Demo S_Sections S_Fork P_Bytes P_Raw P_Buffered P_BufOps P_BufRun P_Sections C_Buffered.
Import ListNotations.
Open Scope Z_scope.
Open Scope list_scope.

Definition run_fact (k : bkind) (a : fact) (F : family) : rout * family :=
  match a with
  | FCall j op => in_process j (run_bop k op) ONone F
  | FFork j => (OUnit, fork_process j F)
  | FClose j => in_process j (fun b => blift (fun _ => OUnit) (inherited_close k b)) ONone F
  end.
Fixpoint run_facts (k : bkind) (acts : list fact) (F : family) : list rout * family :=
  match acts with
  | [] => ([], F)
  | a :: r => let '(out, F1) := run_fact k a F in let '(outs, F2) := run_facts k r F1 in (out :: outs, F2)
  end.
Definition run_turn (k : bkind) (t : fturn) (F : family) : list rout * family :=
  match t with
  | Turn j ops last => in_process j (run_bops k (ops ++ [last])) [] F
  | TFork j => ([], fork_process j F)
  end.
Fixpoint run_turns (k : bkind) (ts : list fturn) (F : family) : list (list rout) * family :=
  match ts with
  | [] => ([], F)
  | t :: r => let '(outs, F1) := run_turn k t F in let '(outss, F2) := run_turns k r F1 in (outs :: outss, F2)
  end.

Lemma put_copy_same l : forall j b b0, nth_error l j = Some b0 -> nth_error (put_copy j b l) j = Some b.
Proof. induction l as [|x l IH]; intros [|j] b b0 H; try discriminate; cbn in *; eauto. Qed.
Lemma put_copy_other l : forall j x b, x <> j -> nth_error (put_copy j b l) x = nth_error l x.
Proof. induction l as [|y l IH]; intros [|j] [|x] b H; cbn; auto; congruence. Qed.
Lemma put_copy_length l : forall j b, List.length (put_copy j b l) = List.length l.
Proof. induction l as [|y l IH]; intros [|j] b; cbn; auto. Qed.

(** * Sections under the mutex that leave no bytes in buffers are serial *)

Lemma baruns_app a : forall ops1 outs1 s s1 ops2 outs2 s2, baruns a s ops1 outs1 s1 -> baruns a s1 ops2 outs2 s2 ->
  baruns a s (ops1 ++ ops2) (outs1 ++ outs2) s2.
Proof. intros ops1 outs1 s s1 ops2 outs2 s2 R. induction R; intros R2; cbn [List.app]; auto. eapply BAR_cons; eauto. Qed.
Lemma run_bops_app k : forall ops1 ops2 b, run_bops k (ops1 ++ ops2) b =
  let '(o1, b1) := run_bops k ops1 b in let '(o2, b2) := run_bops k ops2 b1 in (o1 ++ o2, b2).
Proof.
  induction ops1 as [|op ops1 IH]; intros ops2 b; cbn [List.app run_bops].
  - destruct (run_bops k ops2 b); reflexivity.
  - destruct (run_bop k op b) as [o b1]. rewrite IH. destruct (run_bops k ops1 b1) as [o1 b2]. destruct (run_bops k ops2 b2). reflexivity.
Qed.
Lemma run_bops_length k : forall ops b, List.length (fst (run_bops k ops b)) = List.length ops.
Proof.
  induction ops as [|op ops IH]; intros b; cbn [run_bops]; auto. destruct (run_bop k op b) as [o b1]. specialize (IH b1).
  destruct (run_bops k ops b1). cbn [fst List.length] in *. congruence.
Qed.
Lemma disciplined_app : forall l1 l2 cl, disciplined cl (l1 ++ l2) -> disciplined cl l1.
Proof.
  induction l1 as [|[op out] l1 IH]; intros l2 cl H; cbn [List.app disciplined] in *; auto.
  destruct op; eauto; try (destruct out; eauto; try (destruct e; eauto)); try (destruct H; split; eauto); eauto.
Qed.
Lemma combine_app {A B} : forall (a1 : list A) (b1 : list B) a2 b2, List.length a1 = List.length b1 ->
  combine (a1 ++ a2) (b1 ++ b2) = combine a1 b1 ++ combine a2 b2.
Proof. induction a1 as [|x a1 IH]; intros [|y b1] a2 b2 L; try discriminate; cbn; auto. f_equal. apply IH. now injection L. Qed.

(** The last call of a turn. *)
Lemma handover_ok k b o i c p last : rep k b o i c p -> tameb False b o -> last = BoSeek 0 1 \/ (k = BWriter /\ last = BoFlush) ->
  exists out b' o' i', run_bop k last b = (out, b') /\ evolves b b' o o' /\ rep k b' o' i' c p /\ b_rbuf b' = [] /\ b_wbuf b' = []
    /\ bastep (acc_kind k) (c, p) last out (c, p).
Proof.
  intros R T [->|[-> ->]].
  - destruct (b_seek_ok False k b o i c p 0 1 R T) as (r & b' & o' & i' & E & V & X). cbn [run_bop]. rewrite E.
    pose proof (rp_nn _ _ _ _ _ _ R) as Pn. unfold seek_outcome in X. change (seek_target c p 0 1) with (Some (p + 0)) in X. rewrite Z.add_0_r in X.
    destruct X as [(t & [= <-] & Ht & -> & R' & Er & Ew)|[(t & [= <-] & Ht & _)|[(X & _)|([] & _)]]]; [|lia|discriminate].
    eexists _, b', o', i'. split; [reflexivity|]. split; [auto|]. split; [auto|]. split; [auto|]. split; [auto|].
    cbn [blift]. apply BA_seek; auto. cbn. f_equal. lia.
  - destruct (b_flush_ok False BWriter b o i c p R T) as (r & b' & o' & i' & E & [R' V _ _ _ [[-> W]|[[] _]]]).
    cbn [run_bop]. rewrite E. eexists _, b', o', i'. split; [reflexivity|]. split; [auto|]. split; [auto|].
    split; [apply (rp_nord _ _ _ _ _ _ R'); reflexivity|]. split; [auto|]. apply BA_flush.
Qed.

(** Nothing in anybody's buffers. *)
Record idle (k : bkind) (f : rawio) (size : Z) (F : family) (o : ofd) (i : inode) : Prop := mkIdle {
  id_set : setting k f size (fm_world F) o i;
  id_copies : forall j b, nth_error (fm_copies F) j = Some b -> b_raw b = f /\ b_size b = size /\ b_rbuf b = [] /\ b_rpos b = 0%nat /\ b_wbuf b = [] }.

Lemma idle_rep k f size F o i j b : idle k f size F o i -> nth_error (fm_copies F) j = Some b ->
  rep k (set_world b (fm_world F)) o i (n_data i) (o_pos o) /\ tameb False (set_world b (fm_world F)) o /\ no_epipe (fm_world F).
Proof.
  intros [S C] N. destruct (C j b N) as (E1 & E2 & E3 & E4 & E5). destruct b as [r s rb rp wb w]. cbn in E1, E2, E3, E4, E5. subst.
  apply (setting_rep k f size (fm_world F) o i S).
Qed.

Lemma turns_ok k : forall ts f size F o i outs F', idle k f size F o i -> exist (List.length (fm_copies F)) ts -> Forall (hands_over k) ts ->
  run_turns k ts F = (outs, F') ->
  (k = BRandom -> Forall (fun x => disciplined true (combine (turn_calls (fst x)) (snd x))) (combine ts outs)) ->
  exists o' i', idle k f size F' o' i' /\ sameo o o'
    /\ baruns (acc_kind k) (n_data i, o_pos o) (concat (map turn_calls ts)) (concat outs) (n_data i', o_pos o').
Proof.
  induction ts as [|t ts IH]; intros f size F o i outs F' I X H E D; cbn [run_turns] in E.
  { injection E as <- <-. exists o, i. split; [auto|]. split; [apply sameo_refl|constructor]. }
  destruct (run_turn k t F) as [outs1 F1] eqn:E1. destruct (run_turns k ts F1) as [outss F2] eqn:E2. injection E as <- <-.
  inversion H as [|t0 ts0 Ht Hts]; subst. cbn [map concat].
  assert (D2 : k = BRandom -> Forall (fun x => disciplined true (combine (turn_calls (fst x)) (snd x))) (combine ts outss)).
  { intros K. specialize (D K). inversion D; auto. }
  destruct t as [j ops last|j]; cbn [exist] in X; destruct X as [Xj X].
  - cbn [run_turn] in E1. unfold in_process in E1. destruct (nth_error (fm_copies F) j) as [b|] eqn:N; [|apply nth_error_None in N; lia].
    destruct (idle_rep _ _ _ _ _ _ _ _ I N) as (R & T & P). set (b0 := set_world b (fm_world F)) in *.
    rewrite run_bops_app in E1. destruct (run_bops k ops b0) as [oo b1] eqn:Eo.
    assert (D1 : k = BRandom -> disciplined true (combine ops oo)).
    { intros K. specialize (D K). inversion D as [|x l Dh Dt]; subst. cbn [fst snd turn_calls] in Dh.
      cbn [run_bops] in E1. destruct (run_bop BRandom last b1) as [ol b2]. injection E1 as <- <-.
      rewrite combine_app in Dh by (pose proof (run_bops_length BRandom ops b0) as L; rewrite Eo in L; cbn [fst] in L; auto).
      eapply disciplined_app; eauto. }
    destruct (I) as [S C].
    destruct (bruns_ok k ops b0 o i _ _ true R (se_app _ _ _ _ _ _ S) T P ltac:(intros _ _; apply (C j b N)) oo b1 Eo D1)
      as (o1 & i1 & c1 & p1 & R1 & V1 & Y1). rewrite bacc_acc in Y1.
    destruct (handover_ok k b1 o1 i1 c1 p1 last R1 (tameb_evolves _ _ _ _ _ V1 T) Ht) as (ol & b2 & o2 & i2 & El & V2 & R2 & Er & Ew & Y2).
    cbn [run_bops] in E1. rewrite El in E1. injection E1 as <- <-.
    pose proof (evolves_trans _ _ _ _ _ _ V1 V2) as V. destruct (C j b N) as (B1 & B2 & B3 & B4 & B5).
    assert (Raw : b_raw b2 = f) by (rewrite (ev_raw _ _ _ _ V); exact B1).
    pose proof (rep_flat _ _ _ _ _ _ R2 Ew) as [Hc Hp]. rewrite (unread_nil _ Er), len_nil in Hp.
    assert (Hp2 : p1 = o_pos o2) by lia. subst p1 c1. clear Hp.
    assert (I2 : idle k f size (mkFam (put_copy j b2 (fm_copies F)) (b_w b2)) o2 i2).
    { pose proof (ev_frame _ _ _ _ V) as Fr. pose proof (ev_o _ _ _ _ V) as So. destruct S as [L A Sz [Rd1 Rd2] [Wr1 Wr2] Io].
      constructor; cbn [fm_world fm_copies].
      - constructor; auto.
        + rewrite <- Raw. apply R2.
        + rewrite (so_app _ _ So). auto.
        + rewrite (so_rd _ _ So). auto.
        + rewrite (so_wr _ _ So). auto.
        + intros e Y. apply (Io e), (fr_io _ _ _ _ Fr), Y.
      - intros x bx Nx. destruct (Nat.eq_dec x j) as [->|Hx].
        + rewrite (put_copy_same _ _ _ _ N) in Nx. injection Nx as <-. split; [exact Raw|]. split; [rewrite (ev_size _ _ _ _ V); exact B2|].
          split; [exact Er|]. split; [|exact Ew]. pose proof (rp_rpos _ _ _ _ _ _ R2) as Q. rewrite Er in Q. cbn in Q. lia.
        + rewrite put_copy_other in Nx by auto. eauto. }
    destruct (IH f size _ o2 i2 outss F2 I2) as (o' & i' & I' & So' & Y'); auto.
    { cbn [fm_copies]. now rewrite put_copy_length. }
    exists o', i'. split; [exact I'|]. split; [eapply sameo_trans; [apply (ev_o _ _ _ _ V)|exact So']|].
    eapply baruns_app; [|exact Y']. cbn [turn_calls]. eapply baruns_app; [exact Y1|]. eapply BAR_cons; [exact Y2|constructor].
  - cbn [run_turn] in E1. injection E1 as <- <-. cbn [turn_calls List.app].
    assert (I2 : idle k f size (fork_process j F) o i /\ List.length (fm_copies (fork_process j F)) = S (List.length (fm_copies F))).
    { unfold fork_process. destruct (nth_error (fm_copies F) j) as [b|] eqn:N; [|apply nth_error_None in N; lia]. split.
      - destruct I as [S C]. constructor; cbn [fm_world fm_copies]; auto. intros x bx Nx.
        destruct (Nat.lt_ge_cases x (List.length (fm_copies F))).
        + rewrite nth_error_app1 in Nx by auto. eauto.
        + rewrite nth_error_app2 in Nx by auto. destruct (x - List.length (fm_copies F))%nat as [|[|y]]; try discriminate Nx. injection Nx as <-. eauto.
      - cbn [fm_copies]. rewrite app_length. cbn. lia. }
    destruct I2 as [I2 Ln]. destruct (IH f size _ o i outss F2 I2) as (o' & i' & I' & So' & Y'); auto.
    { now rewrite Ln. }
    eauto.
Qed.

(** Processes that fork, and take turns under the mutex of the stream, each turn ending with
    seek(0, 1) (or flush() if the stream only writes): all calls of all processes, in order, are
    those of one program on one byte array with one cursor, and everything is in the file. *)
Theorem C88_turns_share_one_cursor_partial : forall k f size w o i ts outs F',
  setting k f size w o i -> exist 1 ts -> Forall (hands_over k) ts ->
  run_turns k ts (mkFam [fresh f size w] w) = (outs, F') ->
  (k = BRandom -> Forall (fun x => disciplined true (combine (turn_calls (fst x)) (snd x))) (combine ts outs)) ->
  exists c p, baruns (acc_kind k) (n_data i, o_pos o) (concat (map turn_calls ts)) (concat outs) (c, p)
    /\ holds_file (fm_world F') (o_uid o) c.
Proof.
  intros k f size w o i ts outs F' S X H E D.
  assert (I : idle k f size (mkFam [fresh f size w] w) o i).
  { constructor; [exact S|]. intros [|[|j]] b N; try discriminate. injection N as <-. repeat split. }
  destruct (turns_ok k ts f size _ o i outs F' I X H E D) as (o' & i' & [S' _] & So & Y). exists (n_data i'), (o_pos o'). split; [exact Y|].
  exists i'. split; [|reflexivity]. rewrite <- (so_uid _ _ So). apply (se_live _ _ _ _ _ _ S').
Qed.

(** * Single calls: records stay whole and are stored once, if flush() precedes fork() *)

(** The records in [log] that are of process [j]. *)
Definition of_process (j : nat) (log : list (nat * list Z)) : list (list Z) := map snd (filter (fun x => Nat.eqb (fst x) j) log).
Lemma of_process_app j l1 l2 : of_process j (l1 ++ l2) = of_process j l1 ++ of_process j l2.
Proof.
  unfold of_process. induction l1 as [|x l1 IH]; cbn [List.app filter]; auto.
  destruct (Nat.eqb (fst x) j); cbn [map List.app]; congruence.
Qed.
Lemma of_process_mine j l : of_process j (map (pair j) l) = l.
Proof. unfold of_process. induction l as [|x l IH]; cbn [map filter fst]; auto. rewrite Nat.eqb_refl. cbn. now rewrite IH. Qed.
Lemma of_process_others j x l : x <> j -> of_process x (map (pair j) l) = [].
Proof.
  intros H. unfold of_process. induction l as [|y l IH]; cbn [map filter fst]; auto.
  destruct (Nat.eqb_spec j x); [congruence|]. exact IH.
Qed.
Lemma snd_pairs (j : nat) (l : list (list Z)) : map snd (map (pair j) l) = l.
Proof. rewrite map_map. apply map_id. Qed.

(** A stream opened for writing, appending or not. *)
Record writable_setting (k : bkind) (f : rawio) (size : Z) (w : world) (o : ofd) (i : inode) : Prop := mkWSetting {
  ws_live : live f w o i;
  ws_kind : k <> BReader;
  ws_size : 0 < size;
  ws_rd : (k = BRandom -> f_readable f = true) /\ (f_readable f = true -> o_rd o = true);
  ws_wr : f_writable f = true /\ o_wr o = true;
  ws_io : forall e, ~ In (IoErr e) (w_io w) }.

Record finv (k : bkind) (f : rawio) (size : Z) (c0 : list Z) (p0 : Z) (F : family) (o : ofd) (i : inode)
  (log : list (nat * list Z)) (pend : nat -> list (list Z)) (clean : nat -> bool) : Prop := mkFinv {
  fi_set : writable_setting k f size (fm_world F) o i;
  fi_at : 0 <= p0 /\ (o_app o = true -> p0 = len c0);
  fi_pos : write_pos o i = p0 + len (concat (map snd log));
  fi_data : n_data i = write_at c0 (Z.to_nat p0) (concat (map snd log));
  fi_copies : forall j b, nth_error (fm_copies F) j = Some b ->
    b_size b = size /\ b_rbuf b = [] /\ b_rpos b = 0%nat /\ b_wbuf b = concat (pend j) /\ len (b_wbuf b) <= size
    /\ (b_raw b = f \/ (f_closed (b_raw b) = true /\ pend j = []));
  fi_none : forall j, nth_error (fm_copies F) j = None -> pend j = [];
  fi_clean : forall j, clean j = true -> pend j = [] }.

Lemma ws_rep k f size w o i b : writable_setting k f size w o i -> b_raw b = f -> b_size b = size -> b_rbuf b = [] -> b_rpos b = 0%nat ->
  exists c p, rep k (set_world b w) o i c p /\ tameb False (set_world b w) o.
Proof.
  intros [L K Sz [R1 R2] [W1 W2] Io] <- <- Er Ep. exists (write_at (n_data i) (Z.to_nat (epos (set_world b w) o i)) (b_wbuf b)), (epos (set_world b w) o i + len (b_wbuf b)).
  assert (Un : unread (set_world b w) = []) by (unfold unread; cbn [set_world b_rbuf]; rewrite Er; apply skipn_nil).
  split.
  - constructor; cbn [set_world b_raw b_w b_size b_rbuf b_rpos b_wbuf]; auto.
    + intros X. apply R1. destruct k; try discriminate; congruence.
    + rewrite Ep. lia.
    + intros X. destruct k; try discriminate X; congruence.
    + fold (set_world b w). rewrite Un, len_nil. lia.
    + fold (set_world b w). pose proof (epos_nn (set_world b w) _ _ _ _ L). pose proof (len_nonneg (b_wbuf b)). lia.
    + fold (set_world b w). rewrite Un. apply slice_nil.
  - right. split; [exact Io|]. split; auto.
Qed.

(** Where the next bytes go, after a flush. *)
Lemma flush_moves k b o i c p : rep k b o i c p -> tameb False b o -> b_rbuf b = [] ->
  exists b' o' i', flush_unlocked b = (Ok tt, b') /\ evolves b b' o o' /\ live (b_raw b') (b_w b') o' i'
    /\ b_rbuf b' = [] /\ b_rpos b' = b_rpos b /\ b_wbuf b' = []
    /\ n_data i' = write_at (n_data i) (Z.to_nat (write_pos o i)) (b_wbuf b) /\ write_pos o' i' = write_pos o i + len (b_wbuf b).
Proof.
  intros R T Er. destruct (flush_ok False k b o i c p R T) as (r & b' & o' & i' & E & [R' V Rb Rp (d & Hd & Hn & _) [(-> & W)|([] & _)]]).
  rewrite W, app_nil_r in Hd. subst d. exists b', o', i'. split; [exact E|]. split; [exact V|]. split; [apply R'|].
  split; [congruence|]. split; [exact Rp|]. split; [exact W|].
  pose proof (rep_flat _ _ _ _ _ _ R' W) as [Hc Hp]. rewrite (unread_nil b') in Hp by congruence. rewrite len_nil in Hp.
  pose proof (rp_p _ _ _ _ _ _ R) as Hp0. rewrite (unread_nil b Er), len_nil in Hp0.
  pose proof (so_app _ _ (ev_o _ _ _ _ V)) as Ha. pose proof (rp_live _ _ _ _ _ _ R) as L. pose proof (write_pos_nn _ _ _ _ L).
  destruct (b_wbuf b) as [|x l] eqn:Ew.
  - rewrite write_at_nil in *. split; [exact Hn|]. rewrite len_nil. unfold epos in Hp0. rewrite Ew in Hp0. rewrite len_nil in Hp0.
    unfold write_pos. rewrite Ha, Hn. destruct (o_app o); lia.
  - rewrite epos_pending in Hn, Hp0 by congruence. split; [exact Hn|]. unfold write_pos at 1. rewrite Ha. destruct (o_app o) eqn:Ao.
    + rewrite Hn. unfold write_pos. rewrite Ao. rewrite write_at_len. unfold len. rewrite app_length. lia.
    + lia.
Qed.

Lemma nth_fork F j b : nth_error (fm_copies F) j = Some b -> forall x,
  nth_error (fm_copies (fork_process j F)) x = if Nat.eqb x (List.length (fm_copies F)) then Some b else nth_error (fm_copies F) x.
Proof.
  intros N x. unfold fork_process. rewrite N. cbn [fm_copies]. destruct (Nat.eqb_spec x (List.length (fm_copies F))) as [->|Hx].
  - rewrite nth_error_app2 by lia. now rewrite Nat.sub_diag.
  - destruct (Nat.lt_ge_cases x (List.length (fm_copies F))).
    + now rewrite nth_error_app1.
    + rewrite nth_error_app2 by auto. rewrite (proj2 (nth_error_None (fm_copies F) x)) by lia.
      destruct (x - List.length (fm_copies F))%nat as [|[|y]] eqn:Es; auto. lia.
Qed.

(** What one action adds. *)
Definition adds_record (j : nat) (a : fact) (out : rout) : list (list Z) :=
  match a, out with FCall l (BoWrite d), OInt _ => if Nat.eqb l j then [d] else [] | _, _ => [] end.
Lemma records_cons j a acts out outs : records_of j (a :: acts) (out :: outs) = adds_record j a out ++ records_of j acts outs.
Proof. cbn [records_of]. destruct a as [l [] | |]; auto. destruct out; auto. Qed.
Definition clean_next (clean : nat -> bool) (a : fact) : nat -> bool :=
  match a with
  | FCall j (BoWrite _) => set_at clean j false
  | FCall j BoFlush | FClose j => set_at clean j true
  | _ => clean
  end.

Lemma finv_grow k f size c0 p0 F o i log pend clean j b o' i' (new : list (list Z)) pj' b' clean' :
  finv k f size c0 p0 F o i log pend clean -> nth_error (fm_copies F) j = Some b ->
  evolves (set_world b (fm_world F)) b' o o' -> b_raw b = f \/ new = [] /\ o' = o /\ i' = i /\ b_w b' = fm_world F ->
  (b_raw b = f -> live f (b_w b') o' i') ->
  n_data i' = write_at (n_data i) (Z.to_nat (write_pos o i)) (concat new) -> write_pos o' i' = write_pos o i + len (concat new) ->
  forall b2, b_w b2 = b_w b' -> b_size b2 = size /\ b_rbuf b2 = [] /\ b_rpos b2 = 0%nat /\ b_wbuf b2 = concat pj' /\ len (b_wbuf b2) <= size
    /\ (b_raw b2 = f \/ (f_closed (b_raw b2) = true /\ pj' = [])) ->
  (forall x, x <> j -> clean' x = true -> clean x = true) -> (clean' j = true -> pj' = []) ->
  finv k f size c0 p0 (mkFam (put_copy j b2 (fm_copies F)) (b_w b2)) o' i' (log ++ map (pair j) new) (set_at pend j pj') clean'.
Proof.
  intros [S [P0 Pa] Ps Dt Cp Nn Cl] N V Rw L Hn Hw b2 Ww B2 C1 C2. destruct S as [L0 K Sz [Rd1 Rd2] [Wr1 Wr2] Io].
  pose proof (ev_o _ _ _ _ V) as So. pose proof (len_nonneg (concat (map snd log))) as Ln.
  constructor; cbn [fm_world fm_copies].
  - constructor; auto.
    + rewrite Ww. destruct Rw as [Rw|(-> & -> & -> & ->)]; auto.
    + rewrite (so_rd _ _ So). auto.
    + rewrite (so_wr _ _ So). auto.
    + intros e X. rewrite Ww in X. apply (Io e). apply (fr_io _ _ _ _ (ev_frame _ _ _ _ V)), X.
  - rewrite (so_app _ _ So). auto.
  - rewrite Hw, Ps, map_app, snd_pairs, concat_app. unfold len. rewrite app_length. lia.
  - rewrite Hn, Dt, Ps, map_app, snd_pairs, concat_app. apply write_at_pos. exact P0.
  - intros x bx Nx. destruct (Nat.eq_dec x j) as [->|Hx].
    + rewrite (put_copy_same _ _ _ _ N) in Nx. injection Nx as <-. rewrite set_at_same. exact B2.
    + rewrite put_copy_other in Nx by auto. rewrite set_at_other by auto. auto.
  - intros x Nx. destruct (Nat.eq_dec x j) as [->|Hx].
    + rewrite (put_copy_same _ _ _ _ N) in Nx. discriminate.
    + rewrite put_copy_other in Nx by auto. rewrite set_at_other by auto. auto.
  - intros x Hx. destruct (Nat.eq_dec x j) as [->|Hxj]; [rewrite set_at_same; auto|]. rewrite set_at_other by auto. auto.
Qed.

Lemma fact_ok k f size c0 p0 F o i log pend clean a out F' :
  finv k f size c0 p0 F o i log pend clean -> just_writes [a] -> flushed_forks clean [a] -> run_fact k a F = (out, F') ->
  exists o' i' log' pend', finv k f size c0 p0 F' o' i' log' pend' (clean_next clean a) /\ sameo o o'
    /\ forall j, of_process j log' ++ pend' j = of_process j log ++ pend j ++ adds_record j a out.
Proof.
  intros I J Fl E. pose proof (fi_set _ _ _ _ _ _ _ _ _ _ _ I) as S. pose proof (ws_kind _ _ _ _ _ _ S) as K.
  assert (Kw : can_write k = true) by (destruct k; auto; congruence).
  assert (Skip : forall cl, (forall x, cl x = true -> clean x = true \/ pend x = []) -> finv k f size c0 p0 F o i log pend cl).
  { intros cl H. destruct I. constructor; auto. intros x Hx. destruct (H x Hx); auto. }
  destruct a as [j op|j|j]; cbn [run_fact] in E.
  - (* a call *)
    unfold in_process in E. destruct (nth_error (fm_copies F) j) as [b|] eqn:N.
    2:{ injection E as <- <-. exists o, i, log, pend. pose proof (fi_none _ _ _ _ _ _ _ _ _ _ _ I j N) as Pn.
        split; [apply Skip|split; [apply sameo_refl|]].
        - intros x. destruct op; cbn [just_writes] in J; try contradiction; cbn [clean_next]; unfold set_at; destruct (Nat.eqb_spec x j) as [->|]; auto.
        - intros x. destruct op; cbn [adds_record]; now rewrite app_nil_r. }
    destruct (fi_copies _ _ _ _ _ _ _ _ _ _ _ I j b N) as (B1 & B2 & B3 & B4 & B5 & B6). set (b0 := set_world b (fm_world F)) in *.
    destruct B6 as [Br|[Bc Bp]].
    + destruct (ws_rep _ _ _ _ _ _ b S Br B1 B2 B3) as (c & p & R & T). fold b0 in R, T.
      destruct op; cbn [just_writes] in J; try contradiction; cbn [run_bop] in E.
      * (* write *)
        assert (Ew0 : b_write k d b0 = writer_write d b0).
        { destruct k; [congruence|reflexivity|]. unfold b_write, bind. cbn [b0 set_world b_rbuf]. now rewrite B2. }
        rewrite Ew0 in E. clear Ew0. unfold writer_write in E. unfold bind at 1 in E. rewrite (check_closed_rep _ _ _ _ _ _ R) in E.
        unfold bind at 1 in E. cbn [b0 set_world b_size b_wbuf] in E.
        assert (b_size b <? Z.of_nat (List.length (b_wbuf b)) = false) as X by (apply Z.ltb_ge; rewrite B1; exact B5). rewrite X in E. clear X.
        unfold bind at 1 in E. fold b0 in E. set (b1 := set_wbuf b0 (b_wbuf b0 ++ d)) in *.
        assert (Ew1 : b_wbuf b1 = concat (pend j ++ [d])).
        { cbn [b1 set_wbuf b_wbuf b0 set_world]. rewrite B4, concat_app. cbn. now rewrite app_nil_r. }
        assert (V1 : evolves b0 b1 o o) by (constructor; auto with frame).
        cbn [b_size] in E. destruct (b_size b1 <? Z.of_nat (List.length (b_wbuf b1))) eqn:Ef.
        -- destruct (ws_rep k f size (fm_world F) o i b1 S Br B1 B2 B3) as (c1 & p1 & R1 & T1).
           change (set_world b1 (fm_world F)) with b1 in R1, T1.
           destruct (flush_moves k b1 o i c1 p1 R1 T1 B2) as (b2 & o2 & i2 & E2 & V2 & L2 & Er2 & Ep2 & W2 & D2 & Hw2).
           rewrite E2 in E. cbn in E. injection E as <- <-.
           exists o2, i2, (log ++ map (pair j) (pend j ++ [d])), (set_at pend j []). split; [|split].
           ++ rewrite Ew1 in D2, Hw2. eapply finv_grow; eauto.
              ** eapply evolves_trans; eauto.
              ** intros _. rewrite (ev_raw _ _ _ _ V2) in L2. cbn [b1 set_wbuf b0 set_world b_raw] in L2. now rewrite Br in L2.
              ** split; [rewrite (ev_size _ _ _ _ V2); exact B1|]. split; [exact Er2|]. split; [rewrite Ep2; exact B3|]. split; [exact W2|].
                 split; [rewrite W2, len_nil; pose proof (ws_size _ _ _ _ _ _ S); lia|]. left. rewrite (ev_raw _ _ _ _ V2). exact Br.
              ** cbn [clean_next]. intros x Hx. now rewrite set_at_other by auto.
           ++ apply (ev_o _ _ _ _ V2).
           ++ intros x. cbn [adds_record]. rewrite of_process_app. destruct (Nat.eqb_spec j x) as [->|Hx].
              ** rewrite of_process_mine, set_at_same, app_nil_r. reflexivity.
              ** rewrite of_process_others, set_at_other by auto. now rewrite !app_nil_r.
        -- cbn in E. injection E as <- <-. exists o, i, (log ++ map (pair j) []), (set_at pend j (pend j ++ [d])). split; [|split].
           ++ apply (finv_grow k f size c0 p0 F o i log pend clean j b o i [] (pend j ++ [d]) b1 _ I N V1); auto.
              ** intros _. apply (ws_live _ _ _ _ _ _ S).
              ** cbn [concat]. rewrite len_nil. lia.
              ** apply Z.ltb_ge in Ef. split; [exact B1|]. split; [exact B2|]. split; [exact B3|]. split; [exact Ew1|].
                 split; [|left; exact Br]. cbn [b1 set_wbuf b0 set_world b_size] in Ef. rewrite B1 in Ef. exact Ef.
              ** cbn [clean_next]. intros x Hx. now rewrite set_at_other by auto.
              ** cbn [clean_next]. rewrite set_at_same. discriminate.
           ++ apply sameo_refl.
           ++ intros x. cbn [map adds_record]. rewrite app_nil_r. destruct (Nat.eqb_spec j x) as [->|Hx].
              ** rewrite set_at_same. reflexivity.
              ** rewrite set_at_other by auto. now rewrite app_nil_r.
      * (* flush *)
        assert (Ef : b_flush k b0 = flush_unlocked b0) by (destruct k; [congruence|reflexivity|reflexivity]). rewrite Ef in E.
        destruct (flush_moves k b0 o i c p R T B2) as (b2 & o2 & i2 & E2 & V2 & L2 & Er2 & Ep2 & W2 & D2 & Hw2).
        rewrite E2 in E. cbn in E. injection E as <- <-. change (b_wbuf b0) with (b_wbuf b) in D2, Hw2. rewrite B4 in D2, Hw2.
        exists o2, i2, (log ++ map (pair j) (pend j)), (set_at pend j []). split; [|split].
        -- eapply finv_grow; eauto.
           ++ intros _. rewrite (ev_raw _ _ _ _ V2) in L2. cbn [b0 set_world b_raw] in L2. now rewrite Br in L2.
           ++ split; [rewrite (ev_size _ _ _ _ V2); exact B1|]. split; [exact Er2|]. split; [rewrite Ep2; exact B3|]. split; [exact W2|].
              split; [rewrite W2, len_nil; pose proof (ws_size _ _ _ _ _ _ S); lia|]. left. rewrite (ev_raw _ _ _ _ V2). exact Br.
           ++ cbn [clean_next]. intros x Hx. now rewrite set_at_other by auto.
        -- apply (ev_o _ _ _ _ V2).
        -- intros x. cbn [adds_record]. rewrite of_process_app, app_nil_r. destruct (Nat.eq_dec x j) as [->|Hx].
           ++ rewrite of_process_mine, set_at_same, app_nil_r. reflexivity.
           ++ rewrite of_process_others, set_at_other by auto. now rewrite app_nil_r.
    + (* closed before *)
      assert (Ec : run_bop k op b0 = (OErr EValue, b0)).
      { assert (X : b_check_closed b0 = (Err EValue, b0)) by (unfold b_check_closed; cbn [b0 set_world b_raw]; now rewrite Bc).
        destruct op; cbn [just_writes] in J; try contradiction; cbn [run_bop].
        - assert (b_write k d b0 = writer_write d b0) as ->.
          { destruct k; [congruence|reflexivity|]. unfold b_write, bind. cbn [b0 set_world b_rbuf]. now rewrite B2. }
          unfold writer_write. unfold bind at 1. now rewrite X.
        - assert (b_flush k b0 = flush_unlocked b0) as -> by (destruct k; [congruence|reflexivity|reflexivity]).
          unfold flush_unlocked, bind. now rewrite X. }
      rewrite Ec in E. injection E as <- <-. exists o, i, (log ++ map (pair j) []), (set_at pend j []). split; [|split].
      * apply (finv_grow k f size c0 p0 F o i log pend clean j b o i [] [] b0 _ I N); auto.
        -- apply evolves_refl.
        -- intros _. apply (ws_live _ _ _ _ _ _ S).
        -- cbn [concat]. rewrite len_nil. lia.
        -- split; [exact B1|]. split; [exact B2|]. split; [exact B3|]. split; [rewrite <- Bp; exact B4|]. split; [exact B5|]. right; auto.
        -- destruct op; cbn [just_writes] in J; try contradiction; cbn [clean_next]; intros x Hx; now rewrite set_at_other by auto.
      * apply sameo_refl.
      * intros x. cbn [map]. rewrite app_nil_r. replace (adds_record x (FCall j op) (OErr EValue)) with (@nil (list Z)) by (destruct op; reflexivity).
        rewrite app_nil_r. destruct (Nat.eq_dec x j) as [->|Hx]; [rewrite set_at_same; now rewrite Bp|now rewrite set_at_other by auto].
  - (* fork *)
    injection E as <- <-. cbn [flushed_forks] in Fl. destruct Fl as [Fl _]. exists o, i, log, pend.
    split; [|split; [apply sameo_refl|intros x; cbn [adds_record]; now rewrite app_nil_r]].
    destruct (nth_error (fm_copies F) j) as [b|] eqn:N.
    2:{ unfold fork_process. rewrite N. apply Skip. cbn. auto. }
    assert (W : fm_world (fork_process j F) = fm_world F) by (unfold fork_process; now rewrite N).
    pose proof (nth_fork F j b N) as Nf. pose proof (fi_clean _ _ _ _ _ _ _ _ _ _ _ I j Fl) as Pj.
    assert (Pn : pend (List.length (fm_copies F)) = []) by (apply (fi_none _ _ _ _ _ _ _ _ _ _ _ I); apply nth_error_None; lia).
    destruct (fi_copies _ _ _ _ _ _ _ _ _ _ _ I j b N) as (B1 & B2 & B3 & B4 & B5 & B6).
    destruct I. constructor; auto.
    + rewrite W. auto.
    + intros x bx Nx. rewrite Nf in Nx. destruct (Nat.eqb_spec x (List.length (fm_copies F))) as [->|]; auto. injection Nx as <-.
      rewrite Pn. rewrite Pj in B4. split; [auto|]. split; [auto|]. split; [auto|]. split; [auto|]. split; [auto|].
      destruct B6 as [B6|[B6 _]]; auto.
    + intros x Nx. rewrite Nf in Nx. destruct (Nat.eqb x (List.length (fm_copies F))); [discriminate|]. auto.
  - (* close *)
    unfold in_process in E. destruct (nth_error (fm_copies F) j) as [b|] eqn:N.
    2:{ injection E as <- <-. exists o, i, log, pend. pose proof (fi_none _ _ _ _ _ _ _ _ _ _ _ I j N) as Pn.
        split; [apply Skip|split; [apply sameo_refl|]].
        - intros x. cbn [clean_next]. unfold set_at. destruct (Nat.eqb_spec x j) as [->|]; auto.
        - intros x. cbn [adds_record]. now rewrite app_nil_r. }
    destruct (fi_copies _ _ _ _ _ _ _ _ _ _ _ I j b N) as (B1 & B2 & B3 & B4 & B5 & B6). set (b0 := set_world b (fm_world F)) in *.
    unfold inherited_close in E. destruct B6 as [Br|[Bc Bp]].
    + assert (f_closed (b_raw b0) = false) as X by (change (b_raw b0) with (b_raw b); rewrite Br; apply (lv_open _ _ _ _ (ws_live _ _ _ _ _ _ S))).
      rewrite X in E. clear X. destruct (ws_rep _ _ _ _ _ _ b S Br B1 B2 B3) as (c & p & R & T). fold b0 in R, T.
      unfold finally in E. assert (Ef : b_flush k b0 = flush_unlocked b0) by (destruct k; [congruence|reflexivity|reflexivity]). rewrite Ef in E.
      destruct (flush_moves k b0 o i c p R T B2) as (b2 & o2 & i2 & E2 & V2 & L2 & Er2 & Ep2 & W2 & D2 & Hw2).
      rewrite E2 in E. cbn in E. injection E as <- <-. change (b_wbuf b0) with (b_wbuf b) in D2, Hw2. rewrite B4 in D2, Hw2.
      exists o2, i2, (log ++ map (pair j) (pend j)), (set_at pend j []). split; [|split].
      * set (b3 := mkB (set_closed (b_raw b2)) (b_size b2) (b_rbuf b2) (b_rpos b2) (b_wbuf b2) (b_w b2)). change (b_w b2) with (b_w b3).
        apply (finv_grow k f size c0 p0 F o i log pend clean j b o2 i2 (pend j) [] b2 _ I N V2); auto.
        -- intros _. rewrite (ev_raw _ _ _ _ V2) in L2. cbn [b0 set_world b_raw] in L2. now rewrite Br in L2.
        -- cbn [b3 b_size b_rbuf b_rpos b_wbuf b_raw]. split; [rewrite (ev_size _ _ _ _ V2); exact B1|]. split; [exact Er2|]. split; [rewrite Ep2; exact B3|]. split; [exact W2|].
           split; [rewrite W2, len_nil; pose proof (ws_size _ _ _ _ _ _ S); lia|]. right. split; reflexivity.
        -- cbn [clean_next]. intros x Hx. now rewrite set_at_other by auto.
      * apply (ev_o _ _ _ _ V2).
      * intros x. cbn [adds_record]. rewrite of_process_app, app_nil_r. destruct (Nat.eq_dec x j) as [->|Hx].
        -- rewrite of_process_mine, set_at_same, app_nil_r. reflexivity.
        -- rewrite of_process_others, set_at_other by auto. now rewrite app_nil_r.
    + change (b_raw b0) with (b_raw b) in E. rewrite Bc in E. cbn [blift] in E. injection E as <- <-.
      exists o, i, (log ++ map (pair j) []), (set_at pend j []). split; [|split].
      * apply (finv_grow k f size c0 p0 F o i log pend clean j b o i [] [] b0 _ I N); auto.
        -- apply evolves_refl.
        -- intros _. apply (ws_live _ _ _ _ _ _ S).
        -- cbn [concat]. rewrite len_nil. lia.
        -- split; [exact B1|]. split; [exact B2|]. split; [exact B3|]. split; [rewrite <- Bp; exact B4|]. split; [exact B5|]. right; auto.
        -- cbn [clean_next]. intros x Hx. now rewrite set_at_other by auto.
      * apply sameo_refl.
      * intros x. cbn [map adds_record]. rewrite app_nil_r.
        rewrite app_nil_r. destruct (Nat.eq_dec x j) as [->|Hx]; [rewrite set_at_same; now rewrite Bp|now rewrite set_at_other by auto].
Qed.

Lemma facts_ok k : forall acts f size c0 p0 F o i log pend clean outs F',
  finv k f size c0 p0 F o i log pend clean -> just_writes acts -> flushed_forks clean acts -> run_facts k acts F = (outs, F') ->
  exists o' i' log' pend' clean', finv k f size c0 p0 F' o' i' log' pend' clean' /\ sameo o o'
    /\ forall j, of_process j log' ++ pend' j = of_process j log ++ pend j ++ records_of j acts outs.
Proof.
  induction acts as [|a acts IH]; intros f size c0 p0 F o i log pend clean outs F' I J Fl E; cbn [run_facts] in E.
  { injection E as <- <-. exists o, i, log, pend, clean. split; [exact I|]. split; [apply sameo_refl|]. intros j. cbn [records_of]. now rewrite app_nil_r. }
  destruct (run_fact k a F) as [out F1] eqn:E1. destruct (run_facts k acts F1) as [outs2 F2] eqn:E2. injection E as <- <-.
  assert (Ja : just_writes [a] /\ just_writes acts) by (destruct a as [x []| |]; cbn [just_writes] in *; auto; contradiction).
  assert (Fa : flushed_forks clean [a] /\ flushed_forks (clean_next clean a) acts) by (destruct a as [x []| |]; cbn [flushed_forks clean_next] in *; intuition).
  destruct Ja as [Ja1 Ja2], Fa as [Fa1 Fa2].
  destruct (fact_ok _ _ _ _ _ _ _ _ _ _ _ _ _ _ I Ja1 Fa1 E1) as (o1 & i1 & log1 & pend1 & I1 & S1 & H1).
  destruct (IH _ _ _ _ _ _ _ _ _ _ _ _ I1 Ja2 Fa2 E2) as (o2 & i2 & log2 & pend2 & cl2 & I2 & S2 & H2).
  exists o2, i2, log2, pend2, cl2. split; [exact I2|]. split; [eapply sameo_trans; eauto|].
  intros j. rewrite H2, records_cons, !app_assoc. f_equal. rewrite H1, app_assoc. reflexivity.
Qed.

(** Processes that write through a stream they inherited, calls in any order, each fork()
    preceded by flush(): what is in the file is a sequence of whole records; those of each process
    come in order and once; what is missing is in the buffer of the process. *)
Theorem C88_records_once_partial : forall k f size w o i acts outs F',
  writable_setting k f size w o i -> just_writes acts -> flushed_forks (fun _ => true) acts ->
  run_facts k acts (mkFam [fresh f size w] w) = (outs, F') ->
  exists log c', holds_file (fm_world F') (o_uid o) c'
    /\ stored_at (n_data i) (if o_app o then len (n_data i) else o_pos o) (concat (map snd log)) c'
    /\ forall j, exists rest, records_of j acts outs = of_process j log ++ rest
         /\ (forall b, nth_error (fm_copies F') j = Some b -> b_wbuf b = concat rest).
Proof.
  intros k f size w o i acts outs F' S J Fl E. set (p0 := if o_app o then len (n_data i) else o_pos o).
  pose proof (lv_pos _ _ _ _ (ws_live _ _ _ _ _ _ S)) as Pp. pose proof (len_nonneg (n_data i)) as Ln. pose proof (ws_size _ _ _ _ _ _ S) as Sz.
  assert (P0 : 0 <= p0) by (unfold p0; destruct (o_app o); lia).
  assert (I : finv k f size (n_data i) p0 (mkFam [fresh f size w] w) o i [] (fun _ => []) (fun _ => true)).
  { constructor; cbn [fm_world fm_copies map concat]; auto.
    - split; [exact P0|]. unfold p0. intros ->. reflexivity.
    - rewrite len_nil. unfold p0, write_pos. destruct (o_app o); lia.
    - intros [|[|j]] b N; try discriminate. injection N as <-. cbn [fresh b_size b_rbuf b_rpos b_wbuf b_raw].
      repeat split; auto. rewrite len_nil. lia. }
  destruct (facts_ok _ _ _ _ _ _ _ _ _ _ _ _ _ _ I J Fl E) as (o' & i' & log & pend & cl & I' & So & H). exists log, (n_data i').
  split; [|split].
  - exists i'. split; [|reflexivity]. rewrite <- (so_uid _ _ So). apply (ws_live _ _ _ _ _ _ (fi_set _ _ _ _ _ _ _ _ _ _ _ I')).
  - rewrite (fi_data _ _ _ _ _ _ _ _ _ _ _ I'). apply stored_write. exact P0.
  - intros j. exists (pend j). split; [symmetry; apply (H j)|]. intros b N. apply (fi_copies _ _ _ _ _ _ _ _ _ _ _ I' j b N).
Qed.

(** * What is not so *)

(** The documentation (rsfile_factories.py:79-81): with a multiprocessing lock in place, all
    processes may issue atomic calls on the stream they have inherited.  As on one stream? *)
Definition single_calls_share_one_cursor (k : bkind) : Prop := forall f size w o i acts outs F',
  setting k f size w o i -> (forall a, In a acts -> exists j op, a = FCall j op /\ (j < 2)%nat) ->
  run_facts k (FFork 0 :: acts) (mkFam [fresh f size w] w) = (OUnit :: outs, F') ->
  exists s, baruns (acc_kind k) (n_data i, o_pos o) (calls_of acts) outs s.

Lemma demo_kind k : exists f w o i, demo_open "f" (match k with BWriter => false | _ => true end) (match k with BReader => false | _ => true end) false
    (demo [1;2;3] [] [] []) = (f, w) /\ setting k f 8 w o i /\ n_data i = [1;2;3] /\ o_pos o = 0 /\ o_uid o = (1, 10) /\ o_app o = false.
Proof.
  destruct k; (eexists _, _, _, _; split; [vm_compute; reflexivity|];
  split; [constructor; [constructor; try reflexivity; cbn; lia|reflexivity|lia|cbn; split; auto; congruence|cbn; split; auto; congruence|intros e []]|repeat split; reflexivity]).
Qed.

(** The parent reads a byte; the child, who reads next, gets nothing: the rest of the file is in
    the parent's buffer. *)
Theorem C88_reading_refuted : ~ single_calls_share_one_cursor BReader.
Proof.
  intros H. destruct (demo_kind BReader) as (f & w & o & i & Eo & S & D & P & _).
  destruct (run_facts BReader (FFork 0 :: [FCall 0 (BoRead (Some 1)); FCall 1 (BoRead (Some 1))]) (mkFam [fresh f 8 w] w)) as [outs F'] eqn:E.
  assert (outs = [OUnit; OBytes [1]; OBytes []]) as ->.
  { vm_compute in Eo. injection Eo as <- <-. vm_compute in E. injection E as <- _. reflexivity. }
  destruct (H f 8 w o i [FCall 0 (BoRead (Some 1)); FCall 1 (BoRead (Some 1))] [OBytes [1]; OBytes []] F' S) as (s & X); [|exact E|].
  { intros a [<-|[<-|[]]]; eexists _, _; (split; [reflexivity|lia]). }
  rewrite D, P in X. cbn [calls_of] in X. apply baruns_inv in X as ([c1 p1] & X1 & X). apply baruns_inv in X as ([c2 p2] & X2 & _).
  apply read_inv in X1 as (-> & -> & _). inversion X2; subst.
  - match goal with Y : _ \/ _ |- _ => destruct Y; discriminate end.
  - match goal with Y : len [] = _ |- _ => cbn in Y; discriminate Y end.
Qed.

(** The parent writes a byte; in the child the position has not moved. *)
Theorem C88_writing_refuted : ~ single_calls_share_one_cursor BWriter.
Proof.
  intros H. destruct (demo_kind BWriter) as (f & w & o & i & Eo & S & D & P & _).
  destruct (run_facts BWriter (FFork 0 :: [FCall 0 (BoWrite [7]); FCall 1 BoTell]) (mkFam [fresh f 8 w] w)) as [outs F'] eqn:E.
  assert (outs = [OUnit; OInt 1; OInt 0]) as ->.
  { vm_compute in Eo. injection Eo as <- <-. vm_compute in E. injection E as <- _. reflexivity. }
  destruct (H f 8 w o i [FCall 0 (BoWrite [7]); FCall 1 BoTell] [OInt 1; OInt 0] F' S) as (s & X); [|exact E|].
  { intros a [<-|[<-|[]]]; eexists _, _; (split; [reflexivity|lia]). }
  rewrite D, P in X. cbn [calls_of] in X. apply baruns_inv in X as ([c1 p1] & X1 & X). apply baruns_inv in X as ([c2 p2] & X2 & _).
  apply tell_inv in X2. inversion X1; subst. cbn in *. discriminate.
Qed.

(** A record written before fork() without flush() after it: is it in the file once? *)
Definition stored_once_without_flush : Prop := forall f size w o i d outs F',
  setting BWriter f size w o i ->
  run_facts BWriter [FCall 0 (BoWrite d); FFork 0; FClose 0; FClose 1] (mkFam [fresh f size w] w) = (outs, F') ->
  exists c', holds_file (fm_world F') (o_uid o) c' /\ stored_at (n_data i) (o_pos o) d c'.
(** Parent and child have it in their buffers and both write it. *)
Theorem C88_unflushed_fork_refuted : ~ stored_once_without_flush.
Proof.
  intros H. destruct (demo_kind BWriter) as (f & w & o & i & Eo & S & D & P & U & _).
  destruct (run_facts BWriter [FCall 0 (BoWrite [7]); FFork 0; FClose 0; FClose 1] (mkFam [fresh f 8 w] w)) as [outs F'] eqn:E.
  destruct (H f 8 w o i [7] outs F' S E) as (c' & (i' & Ei & Ed) & St). rewrite U in Ei. rewrite D, P in St.
  assert (c' = [7;7;3]) as ->.
  { rewrite <- Ed. assert (option_map n_data (w_inodes (fm_world F') (1, 10)) = Some [7;7;3]) as X.
    { vm_compute in Eo. injection Eo as <- <-. change F' with (snd (outs, F')). rewrite <- E. vm_compute. reflexivity. }
    rewrite Ei in X. now injection X. }
  assert (X : stored_at [1;2;3] 0 [7] (write_at [1;2;3] (Z.to_nat 0) [7])) by (apply stored_write; lia).
  assert (Y : write_at [1;2;3] (Z.to_nat 0) [7] = [7;7;3]) by (eapply stored_at_fun; eauto). discriminate Y.
Qed.

(** * Examples *)
Example C88_example : (* process 1 is forked by 0 after a flush; buffers of 4 bytes; the kernel takes one byte, then two *)
  let '(outs, F) := run_facts BWriter
     [FCall 0 (BoWrite [1;2]); FCall 0 BoFlush; FFork 0; FCall 0 (BoWrite [3;3]); FCall 1 (BoWrite [4;4;4]); FCall 0 (BoWrite [5;5;5]);
      FCall 1 BoFlush; FClose 1; FCall 1 (BoWrite [6]); FClose 0]
     (let b := demo_buf BWriter 4 [] [IoShort 1; IoFull; IoShort 2] in mkFam [b] (b_w b)) in
  outs = [OInt 2; OUnit; OUnit; OInt 2; OInt 3; OInt 3; OUnit; OUnit; OErr EValue; OUnit]
  /\ content (fm_world F) (1, 10) = [1;2;3;3;5;5;5;4;4;4].
Proof. vm_compute. auto. Qed.
Example C88_turns_example :
  let '(outs, F) := run_turns BRandom
     [TFork 0; Turn 0 [BoRead (Some 2)] (BoSeek 0 1); Turn 1 [BoRead (Some 1); BoWrite [9]] (BoSeek 0 1); Turn 0 [BoRead None] (BoSeek 0 1)]
     (let b := demo_buf BRandom 4 [1;2;3;4;5;6] [] in mkFam [b] (b_w b)) in
  outs = [[]; [OBytes [1;2]; OInt 2]; [OBytes [3]; OInt 1; OInt 4]; [OBytes [5;6]; OInt 6]]
  /\ content (fm_world F) (1, 10) = [1;2;3;9;5;6].
Proof. vm_compute. auto. Qed.
Example C88_setting_inhabited : exists f w o i, writable_setting BWriter f 8 w o i /\ setting BWriter f 8 w o i.
Proof.
  destruct (demo_kind BWriter) as (f & w & o & i & Eo & S & D & P & U & A). exists f, w, o, i. split; [|exact S].
  destruct S as [L Ap Sz [R1 R2] [W1 W2] Io]. constructor; auto; try discriminate.
  - split; [discriminate|exact R2].
  - split; [apply W1|apply W2, W1]; discriminate.
Qed.

Print Assumptions C88_turns_share_one_cursor_partial.
Print Assumptions C88_records_once_partial.
Print Assumptions C88_reading_refuted.
Print Assumptions C88_writing_refuted.
Print Assumptions C88_unflushed_fork_refuted.
