(** Final theorems of C82-C84: the sections of C72 when lock calls wait for one another. *)
From Coq Require Import ZArith Ascii String List Bool Lia.
From Verif Require Import M_Base M_Modes M_Registry M_Kernel M_World M_Raw M_Buffered M_Waiting S_Bytes S_Raw S_Locks S_LockFile
  S_Open S_Buffered S_Demo S_Sections S_Waiting P_Bytes P_Raw P_Registry P_Kernel P_Lock P_LockFile P_Buffered P_BufOps P_BufRun
  P_Turns P_Sections C_Buffered C_Sections.
Import ListNotations.
Open Scope Z_scope.
Open Scope list_scope.

(** lock_file() as modelled in M_Raw is the repetition of turns, the environment acting once
    between two of them. *)
Theorem C82_turns_make_the_call : forall f q env ph w, lock_loop f q env ph w
  = match lock_turn f q ph w with
    | (TDone r, w') => (r, w')
    | (TWait ph', w') => match env with
                         | [] => (Err EHang, w')
                         | ev :: env' => lock_loop f q env' ph' (set_env (apply_env (uid_of f) (fd_of f) ev w') env')
                         end
    end.
Proof. exact loop_turn. Qed.

(** * Running: the streams, the world, and the calls that sleep *)
Record wgroup : Type := mkW { wg : group; wg_waits : nat -> option (lockreq * phase) }.

Definition after_turn (W : wgroup) (j : nat) (k : bkind) (q : lockreq) (r : turn) (b' : bstate) : gout * wgroup :=
  let g' := mkGroup (replace j (k, b') (g_streams (wg W))) (b_w b') in
  match r with
  | TDone (Ok _) => (GGot, mkW g' (set_at (wg_waits W) j None))
  | TDone (Err e) => (GError e, mkW g' (set_at (wg_waits W) j None))
  | TWait ph => (GSilent, mkW g' (set_at (wg_waits W) j (Some (q, ph))))
  end.
Definition run_wact (u : uid) (a : wact) (W : wgroup) : gout * wgroup :=
  let g := wg W in
  match a with
  | WAct (GLock j t) =>
      match nth_error (g_streams g) j with
      | None => (GSilent, W)
      | Some (k, b) => let '(r, q, b') := b_lock_begin k t (set_world b (g_world g)) in after_turn W j k q r b'
      end
  | WAct a => let '(out, g') := run_gact u a g in (out, mkW g' (wg_waits W))
  | WTurn j =>
      match nth_error (g_streams g) j, wg_waits W j with
      | Some (k, b), Some (q, ph) => let '(r, b') := b_lock_turn q ph (set_world b (g_world g)) in after_turn W j k q r b'
      | _, _ => (GSilent, W)
      end
  | WTick dt => (GSilent, mkW (mkGroup (g_streams g) (set_clock (g_world g) (w_clock (g_world g) + dt))) (wg_waits W))
  end.
Fixpoint run_wacts (u : uid) (acts : list wact) (W : wgroup) : list gout * wgroup :=
  match acts with
  | [] => ([], W)
  | a :: r => let '(out, W1) := run_wact u a W in let '(outs, W2) := run_wacts u r W1 in (out :: outs, W2)
  end.
Fixpoint wobeys (u : uid) (held cl asleep : nat -> bool) (acts : list wact) (W : wgroup) : Prop :=
  match acts with
  | [] => True
  | a :: r => let '(out, W1) := run_wact u a W in
              wpermitted (kind_of (wg W)) u held cl asleep a out (g_world (wg W))
              /\ wobeys u (wheld_after held a out) (wclean_after cl a out) (asleep_after asleep a out) r W1
  end.

(** * The invariant *)
Definition wait_ok (u : uid) (w : world) (k : bkind) (held rg asleep : bool) (x : option (lockreq * phase)) : Prop :=
  match x with
  | None => asleep = false /\ rg = held
  | Some (q, ph) => asleep = true /\ whole q k /\ settled w u /\ if is_reg ph then rg = true /\ held = false else rg = held
  end.
Record winv (u : uid) (W : wgroup) (c : list Z) (ps : nat -> Z) (held rg cl asleep : nat -> bool) (i : inode) : Prop := mkWinv {
  wi_group : ginv u (wg W) c ps held rg cl i;
  wi_waits : forall j k, kind_of (wg W) j = Some k -> wait_ok u (g_world (wg W)) k (held j) (rg j) (asleep j) (wg_waits W j) }.

Lemma wait_ok_settled u w w' k h r s x : (settled w u -> settled w' u) -> wait_ok u w k h r s x -> wait_ok u w' k h r s x.
Proof. unfold wait_ok. destruct x as [[q ph]|]; [|auto]. intros H (A & B & C & D). auto. Qed.

(** A stream whose call has just had a turn. *)
Lemma winv_after u W c ps held rg cl asleep i j k b b' w0 ps2 held2 rg2 cl2 asleep2 i2 x :
  winv u W c ps held rg cl asleep i -> nth_error (g_streams (wg W)) j = Some (k, b) -> w0 = b_w b' ->
  (settled (g_world (wg W)) u -> settled w0 u) ->
  ginv u (mkGroup (replace j (k, b') (g_streams (wg W))) w0) c ps2 held2 rg2 cl2 i2 ->
  (forall l, l <> j -> held2 l = held l /\ rg2 l = rg l /\ asleep2 l = asleep l) ->
  wait_ok u w0 k (held2 j) (rg2 j) (asleep2 j) x ->
  winv u (mkW (mkGroup (replace j (k, b') (g_streams (wg W))) w0) (set_at (wg_waits W) j x)) c ps2 held2 rg2 cl2 asleep2 i2.
Proof.
  intros [G Wt] N -> Se G2 Oth Hx. constructor; cbn [wg wg_waits]; [exact G2|].
  intros l k2 Hk. rewrite (kind_other _ _ _ _ _ _ _ N) in Hk. cbn [g_world]. destruct (Nat.eq_dec l j) as [->|Hl].
  - rewrite set_at_same. replace k2 with k; [exact Hx|]. apply kind_nth in Hk. destruct Hk as (b0 & Hk). congruence.
  - rewrite set_at_other by auto. destruct (Oth l Hl) as (-> & -> & ->). apply (wait_ok_settled u (g_world (wg W))); auto.
Qed.

(** One action. *)
Lemma step_wact u W c ps held rg cl asleep i a out W1 :
  winv u W c ps held rg cl asleep i -> (forall d, a = WAct (GData d) -> unread_only (wg W)) ->
  run_wact u a W = (out, W1) -> wpermitted (kind_of (wg W)) u held cl asleep a out (g_world (wg W)) ->
  exists c1 ps1 rg1 i1, wstep (kind_of (wg W)) (app_of (wg W)) (c, ps, held) a out (c1, ps1, wheld_after held a out)
    /\ winv u W1 c1 ps1 (wheld_after held a out) rg1 (wclean_after cl a out) (asleep_after asleep a out) i1
    /\ same_raws (wg W) (wg W1).
Proof.
  intros V Sf E Pm. pose proof (wi_group _ _ _ _ _ _ _ _ _ V) as G.
  assert (Nk : forall j, kind_of (wg W) j <> None -> exists k b, nth_error (g_streams (wg W)) j = Some (k, b)).
  { intros j. unfold kind_of. destruct (nth_error (g_streams (wg W)) j) as [[k b]|]; cbn; [eauto|congruence]. }
  destruct a as [a|j|dt].
  - assert (Hoth : forall g', (forall l, kind_of g' l = kind_of (wg W) l) -> (settled (g_world (wg W)) u -> settled (g_world g') u) ->
       forall c1 ps1 cl1 i1, ginv u g' c1 ps1 held rg cl1 i1 -> winv u (mkW g' (wg_waits W)) c1 ps1 held rg cl1 asleep i1).
    { intros g' Hk Hs c1 ps1 cl1 i1 G1. constructor; cbn [wg wg_waits]; [exact G1|]. intros l k2 Hl. rewrite Hk in Hl.
      apply (wait_ok_settled u (g_world (wg W))); auto. apply (wi_waits _ _ _ _ _ _ _ _ _ V l k2 Hl). }
    destruct a as [j t|j op|j|K|d]; cbn [wpermitted permitted] in Pm.
    + (* lock_file *)
      destruct Pm as [Hk Ha]. destruct (Nk _ Hk) as (k & b & N). cbn [run_wact] in E. rewrite N in E.
      destruct (b_lock_begin k t (set_world b (g_world (wg W)))) as [[r q] b'] eqn:Eb.
      destruct (step_begin _ _ _ _ _ _ _ _ _ _ _ _ _ _ _ G N Eb) as (Se & Raw & i' & T). cbn zeta in T.
      assert (Wj : wait_ok u (g_world (wg W)) k (held j) (rg j) (asleep j) (wg_waits W j)) by (apply (wi_waits _ _ _ _ _ _ _ _ _ V); apply kind_nth; eauto).
      assert (Wn : wg_waits W j = None /\ rg j = held j).
      { destruct (wg_waits W j) as [[q0 ph0]|]; cbn in Wj; [destruct Wj as [X _]; congruence|tauto]. }
      destruct Wn as [Wn Rj].
      unfold after_turn in E. destruct r as [[x|e]|ph]; injection E as <- <-; cbn [wheld_after held_after wclean_after clean_after asleep_after].
      * destruct T as (T1 & T2 & T3). exists c, ps, (set_at rg j true), i'. split.
        { apply WS_act, SS_lock. intros l k2 Hk2 Hl. destruct (T2 l k2 Hk2 Hl) as (-> & -> & Hn).
          split; auto. split; auto. apply kind_nth. eauto. }
        split; [|eapply same_raws_replace; eauto]. eapply winv_after; eauto.
        -- intros l Hl. rewrite !set_at_other by auto. auto.
        -- rewrite !set_at_same. cbn. auto.
      * exists c, ps, rg, i'. split; [apply WS_act, SS_refused|].
        split; [|eapply same_raws_replace; eauto]. eapply winv_after; eauto. cbn. auto.
      * destruct T as (T1 & T2 & T3 & T4). exists c, ps, (set_at rg j (if is_reg ph then true else rg j)), i'.
        split; [apply WS_asleep|]. split; [|eapply same_raws_replace; eauto]. eapply winv_after; eauto.
        -- intros l Hl. rewrite !set_at_other by auto. auto.
        -- rewrite !set_at_same. cbn. split; [reflexivity|]. split; [exact T1|]. split; [exact T2|].
           destruct (is_reg ph); auto.
    + destruct Pm as [(Hk & Hh & Hd) Ha]. destruct (Nk _ Hk) as (k & b & N). cbn [run_wact run_gact] in E. unfold on_stream in E. rewrite N in E.
      destruct (run_bop k op (set_world b (g_world (wg W)))) as [ro b3] eqn:Er. injection E as <- <-.
      destruct (step_op _ _ _ _ _ _ _ _ _ _ _ _ _ _ G N Hh Er) as (c1 & p1 & i1 & B & G1 & R1 & R2 & R3).
      { intros ->. apply Hd. apply kind_nth. eauto. }
      exists c1, (set_at ps j p1), rg, i1. split.
      { apply WS_act. apply SS_op with (k := k); auto. apply kind_nth. eauto. }
      cbn [asleep_after wheld_after held_after wclean_after clean_after].
      split; [|eapply same_raws_replace; eauto]. apply Hoth; auto.
      * intros l. now apply kind_other with (b := b).
      * unfold settled. cbn [g_world]. now rewrite R1, R2.
    + destruct Pm as [(Hk & Hh) Ha]. destruct (Nk _ Hk) as (k & b & N). cbn [run_wact run_gact] in E. unfold on_stream in E. rewrite N in E.
      destruct (step_unlock _ _ _ _ _ _ _ _ _ _ _ G N Hh) as (b3 & i' & Eu & G1 & Se & Raw).
      rewrite Eu in E. cbn in E. injection E as <- <-.
      assert (Wj : wait_ok u (g_world (wg W)) k (held j) (rg j) (asleep j) (wg_waits W j)) by (apply (wi_waits _ _ _ _ _ _ _ _ _ V); apply kind_nth; eauto).
      assert (Wn : wg_waits W j = None).
      { destruct (wg_waits W j) as [[q0 ph0]|]; cbn in Wj; [destruct Wj as [X _]; congruence|auto]. }
      exists c, ps, (set_at rg j false), i'. split; [now apply WS_act, SS_unlock|].
      cbn [asleep_after wheld_after held_after wclean_after clean_after].
      split; [|eapply same_raws_replace; eauto]. constructor; cbn [wg wg_waits]; [exact G1|]. intros l k2 Hl. rewrite (kind_other _ _ _ _ _ _ _ N) in Hl. cbn [g_world].
      destruct (Nat.eq_dec l j) as [->|Hn].
      * rewrite !set_at_same, Wn. cbn. auto.
      * rewrite !set_at_other by auto. apply (wait_ok_settled u (g_world (wg W))); auto. apply (wi_waits _ _ _ _ _ _ _ _ _ V l k2 Hl).
    + cbn in E. injection E as <- <-. destruct Pm as [La Ow]. exists c, ps, rg, i. split; [apply WS_act, SS_other|].
      cbn [asleep_after wheld_after held_after wclean_after clean_after].
      split; [|apply same_raws_refl]. apply Hoth; auto. now apply step_other.
    + cbn in E. injection E as <- <-. destruct (step_data _ _ _ _ _ _ _ _ d G (Sf d eq_refl) Pm) as [No G1].
      exists d, ps, rg, (mkIno KReg d true). split; [now apply WS_act, SS_data|].
      cbn [asleep_after wheld_after held_after wclean_after clean_after].
      split; [|apply same_raws_refl]. now apply Hoth.
  - (* a sleeper's turn *)
    destruct Pm as [Hk Ha]. destruct (Nk _ Hk) as (k & b & N). cbn [run_wact] in E. rewrite N in E.
    assert (Wj : wait_ok u (g_world (wg W)) k (held j) (rg j) (asleep j) (wg_waits W j)) by (apply (wi_waits _ _ _ _ _ _ _ _ _ V); apply kind_nth; eauto).
    destruct (wg_waits W j) as [[q ph]|] eqn:Ew; cbn in Wj; [|destruct Wj; congruence]. destruct Wj as (_ & Wq & Ws & Wr).
    unfold b_lock_turn in E. cbn [set_world b_raw b_w] in E.
    destruct (lock_turn (b_raw b) q ph (g_world (wg W))) as [r w'] eqn:Et.
    destruct (step_turn u (wg W) c ps held rg cl i j k b q ph r w' G N Wq) as [Se T]; auto.
    { intros Hr. now rewrite Hr in Wr. }
    cbn zeta in T. unfold after_turn in E. cbn [set_world b_w] in E.
    change (set_world (set_world b (g_world (wg W))) w') with (set_world b w') in E.
    destruct r as [[x|e]|ph']; injection E as <- <-; cbn [wheld_after wclean_after asleep_after].
    + destruct T as (T1 & T2 & T3). exists c, ps, (set_at rg j true), i. split.
      { apply WS_got. intros l k2 Hk2 Hl. destruct (T2 l k2 Hk2 Hl) as (-> & -> & Hn).
        split; auto. split; auto. apply kind_nth. eauto. }
      split; [|eapply same_raws_replace; eauto]. eapply winv_after; eauto.
      * intros l Hl. rewrite !set_at_other by auto. auto.
      * rewrite !set_at_same. cbn. auto.
    + exists c, ps, (set_at rg j (if is_reg ph then false else rg j)), i. split; [apply WS_refused|].
      split; [|eapply same_raws_replace; eauto]. eapply winv_after; eauto.
      * intros l Hl. rewrite !set_at_other by auto. auto.
      * rewrite !set_at_same. cbn. split; [reflexivity|]. destruct (is_reg ph); [symmetry; tauto|exact Wr].
    + destruct T as (T1 & T2 & T3). exists c, ps, (set_at rg j (if is_reg ph' then true else rg j)), i.
      split; [apply WS_still|]. split; [|eapply same_raws_replace; eauto]. eapply winv_after; eauto.
      * intros l Hl. rewrite !set_at_other by auto. auto.
      * rewrite !set_at_same. cbn. split; [exact Ha|]. split; [exact Wq|]. split; [auto|].
        destruct (is_reg ph'); auto. destruct (is_reg ph); [discriminate (T2 eq_refl)|exact Wr].
  - cbn in E. injection E as <- <-. exists c, ps, rg, i. split; [apply WS_tick|].
    cbn [wheld_after wclean_after asleep_after]. split; [|apply same_raws_refl].
    constructor; cbn [wg wg_waits]; [|apply (wi_waits _ _ _ _ _ _ _ _ _ V)].
    destruct G. constructor; auto.
    intros l k b N. apply (sinv_world u (g_world (wg W)) i c k b _ _ _ _ _ i c); auto.
Qed.

Lemma wkind_step u a W out W1 : run_wact u a W = (out, W1) -> forall l, kind_of (wg W1) l = kind_of (wg W) l.
Proof.
  intros E l.
  assert (X : forall j k b q r b' o W2, nth_error (g_streams (wg W)) j = Some (k, b) -> after_turn W j k q r b' = (o, W2) ->
     kind_of (wg W2) l = kind_of (wg W) l).
  { intros j k b q r b' o W2 N H. unfold after_turn in H.
    destruct r as [[]|]; injection H as _ <-; cbn [wg]; now apply kind_other with (b := b). }
  assert (Y : forall a0, (let '(o, g') := run_gact u a0 (wg W) in (o, mkW g' (wg_waits W))) = (out, W1) -> kind_of (wg W1) l = kind_of (wg W) l).
  { intros a0 H. pose proof (kind_same u [a0] (wg W) l) as K. cbn [run_gacts] in K. destruct (run_gact u a0 (wg W)) as [o g'].
    injection H as _ <-. exact K. }
  destruct a as [a|j|dt]; cbn [run_wact] in E.
  - destruct a as [j t|j op|j|K|d]; try (apply Y with (a0 := _) in E; exact E).
    destruct (nth_error (g_streams (wg W)) j) as [[k b]|] eqn:N; [|injection E as _ <-; reflexivity].
    destruct (b_lock_begin _ _ _) as [[r q] b']. eapply X; eauto.
  - destruct (nth_error (g_streams (wg W)) j) as [[k b]|] eqn:N; [|injection E as _ <-; reflexivity].
    destruct (wg_waits W j) as [[q ph]|]; [|injection E as _ <-; reflexivity].
    destruct (b_lock_turn _ _ _) as [r b']. eapply X; eauto.
  - injection E as _ <-. reflexivity.
Qed.
Lemma wkind_same u acts : forall W l, kind_of (wg (snd (run_wacts u acts W))) l = kind_of (wg W) l.
Proof.
  induction acts as [|a acts IH]; intros W l; cbn [run_wacts]; [reflexivity|].
  destruct (run_wact u a W) as [out W1] eqn:E. specialize (IH W1 l). destruct (run_wacts u acts W1) as [outs W2]. cbn [snd] in *.
  rewrite IH. eapply wkind_step; eauto.
Qed.
Lemma wstep_kind kind kind' app app' s a out s' : (forall l, kind l = kind' l) -> (forall l, app l = app' l) ->
  wstep kind app s a out s' -> wstep kind' app' s a out s'.
Proof.
  intros K A H. inversion H; subst; clear H; try (constructor; fail).
  - apply WS_act. eapply sstep_kind; eauto.
  - apply WS_got. intros l k Hk Hh. rewrite <- K in Hk. rewrite <- K. eauto.
Qed.
Lemma wruns_kind kind kind' app app' s acts outs s' : (forall l, kind l = kind' l) -> (forall l, app l = app' l) ->
  wruns kind app s acts outs s' -> wruns kind' app' s acts outs s'.
Proof. intros K A H. induction H; [constructor|]. apply WR_cons with (s1 := s1); [eapply wstep_kind; eauto|auto]. Qed.

(** The state after a run, as seen from outside. *)
Fixpoint after_all {A B} (step : A -> B -> gout -> A) (x : A) (acts : list B) (outs : list gout) : A :=
  match acts, outs with
  | a :: acts, o :: outs => after_all step (step x a o) acts outs
  | _, _ => x
  end.

Lemma wruns_serial u : forall acts W c ps held rg cl asleep i,
  winv u W c ps held rg cl asleep i ->
  (forall d, In (WAct (GData d)) acts -> unread_only (wg W)) ->
  forall outs W', run_wacts u acts W = (outs, W') -> wobeys u held cl asleep acts W ->
  exists c' ps' rg' i', wruns (kind_of (wg W)) (app_of (wg W)) (c, ps, held) acts outs (c', ps', after_all wheld_after held acts outs)
    /\ winv u W' c' ps' (after_all wheld_after held acts outs) rg' (after_all wclean_after cl acts outs)
            (after_all asleep_after asleep acts outs) i'
    /\ same_raws (wg W) (wg W').
Proof.
  induction acts as [|a acts IH]; intros W c ps held rg cl asleep i V Sf outs W' E O; cbn [run_wacts wobeys] in E, O.
  { injection E as <- <-. exists c, ps, rg, i. split; [constructor|]. split; [exact V|]. intros j k b N. eauto. }
  destruct (run_wact u a W) as [out W1] eqn:E1. destruct (run_wacts u acts W1) as [outs2 W2] eqn:E2. injection E as <- <-.
  destruct O as [Pm O]. pose proof (wkind_step _ _ _ _ _ E1) as Kg.
  assert (Sa : forall d, a = WAct (GData d) -> unread_only (wg W)) by (intros d ->; apply (Sf d); now left).
  destruct (step_wact _ _ _ _ _ _ _ _ _ _ _ _ V Sa E1 Pm) as (c1 & ps1 & rg1 & i1 & S & V1 & Rw).
  destruct (IH _ _ _ _ _ _ _ _ V1) with (outs := outs2) (W' := W2) as (c' & ps' & rg' & i' & R & V' & Rw'); auto.
  { intros d Hd j k b N. specialize (Sf d (or_intror Hd)). assert (X : kind_of (wg W1) j = Some k) by (apply kind_nth; eauto).
    rewrite Kg in X. apply kind_nth in X. destruct X as (b0 & N0). eapply Sf; eauto. }
  exists c', ps', rg', i'. cbn [after_all]. split; [|split; [exact V'|]].
  - eapply WR_cons; [exact S|]. eapply wruns_kind; [| |exact R]; [exact Kg|]. now apply same_app.
  - intros j k b N. destruct (Rw j k b N) as (b1 & N1 & E3). destruct (Rw' j k b1 N1) as (b2 & N2 & E4). exists b2. split; congruence.
Qed.

Definition at_rest (g : group) : wgroup := mkW g (fun _ => None).
Lemma together_winv u g c ps : together u g c ps -> exists i, winv u (at_rest g) c ps nobody nobody (fun _ => true) nobody i.
Proof.
  intros T. destruct (together_inv _ _ _ _ T) as (i & G). exists i. constructor; [exact G|]. intros j k _. cbn. auto.
Qed.

(** As C72, with lock calls that sleep, inside the process or in the kernel, and wake up in any
    order while other streams and other processes work: the sections still follow each other. *)
Theorem C82_waiting_sections_are_serial_partial : forall u g c ps acts outs W',
  together u g c ps ->
  (forall d, ~ In (WAct (GData d)) acts) \/ unread_only g ->
  run_wacts u acts (at_rest g) = (outs, W') -> wobeys u nobody (fun _ => true) nobody acts (at_rest g) ->
  exists c' ps', let held' := after_all wheld_after nobody acts outs in
    wruns (kind_of g) (app_of g) (c, ps, nobody) acts outs (c', ps', held')
    /\ ((forall j k, kind_of g j = Some k -> held' j = false) -> holds_file (g_world (wg W')) u c')
    /\ (forall j l k k', kind_of g j = Some k -> kind_of g l = Some k' -> j <> l -> held' j = true -> held' l = true ->
        k = BReader /\ k' = BReader).
Proof.
  intros u g c ps acts outs W' T Sf E O. destruct (together_winv _ _ _ _ T) as (i & V).
  destruct (wruns_serial u acts (at_rest g) c ps nobody _ _ _ i V) with (outs := outs) (W' := W') as (c' & ps' & rg' & i' & R & V' & Rw'); auto.
  { intros d Hd. destruct Sf as [Sf|Sf]; auto. exfalso. eapply Sf; eauto. }
  pose proof (wkind_same u acts (at_rest g)) as Kg. rewrite E in Kg. cbn [snd wg at_rest] in Kg.
  pose proof (wi_group _ _ _ _ _ _ _ _ _ V') as G'.
  exists c', ps'. cbn zeta. split; [exact R|]. split.
  - intros H. exists i'. split; [apply (gi_ino _ _ _ _ _ _ _ _ G')|]. apply (gi_free _ _ _ _ _ _ _ _ G').
    intros j k Hk. apply (H j k). now rewrite <- Kg.
  - intros j l k k' Hj Hl Hn Hj2 Hl2. rewrite <- Kg in Hj, Hl. apply kind_nth in Hj. apply kind_nth in Hl.
    destruct Hj as (b & Nj), Hl as (b' & Nl). eapply held_excl; eauto.
Qed.

(** * A sleeper gets the lock once nothing is in its way *)

(** Other processes' locks on the file leave room for a stream of kind [k]. *)
Definition kernel_room (w : world) (u : uid) (k : bkind) : Prop :=
  forall s, In s (w_kern w) -> k_pid s <> w_pid w -> k_ino s = u -> k_shared s = true /\ k = BReader.

Lemma turn_goes_through f q ph w k :
  whole q k -> lockable f w (q_shared q) -> kernel_room w (uid_of f) k ->
  settled w (uid_of f) \/ ph = PhReg -> (is_reg ph = false -> unopposed f q w) ->
  exists w', lock_turn f q ph w = (TDone (Ok tt), w').
Proof.
  intros (Q1 & Q2 & Q3) L Kr Se Un.
  assert (A : forall x, w_kern x = w_kern w -> w_pid x = w_pid w -> exists w', turn_attempt f q x = (TDone (Ok tt), w')).
  { intros x E1 E2. unfold turn_attempt. rewrite lock_attempt_eq, E1, E2. destruct (ksetlk _ _ _ _ _ _) eqn:EK; [eauto|].
    exfalso. apply ksetlk_refused in EK. destruct EK as (p & sh & z & Hp & (s & Hs & Ep & Eu & Esh & B) & Hb & Hc).
    destruct (Kr s Hs ltac:(congruence) Eu) as [X ->]. rewrite <- Esh, X, Q3 in Hc. cbn in Hc. apply Hc. auto. }
  assert (K : forall x, lockable f x (q_shared q) -> w_kern x = w_kern w -> w_pid x = w_pid w -> exists w', turn_kern f q x = (TDone (Ok tt), w')).
  { intros x Lx E1 E2. unfold turn_kern. destruct (lockable_pre f q x Lx ltac:(lia)) as (io & ->). now apply A. }
  assert (R : forall first x, (first = false -> r_pid (w_reg x) = w_pid x) -> lockable f x (q_shared q) -> w_kern x = w_kern w -> w_pid x = w_pid w ->
     unopposed f q x -> exists w', turn_register f q first x = (TDone (Ok tt), w')).
  { intros first x Hf Lx E1 E2 Ux. unfold turn_register, register_once.
    assert (Er : (if first then check_forking (w_pid x) (w_reg x) else w_reg x) = registry_of x).
    { destruct first; [reflexivity|]. symmetry. now apply registry_of_id, Hf. }
    rewrite Er, Q1, Q2. destruct (try_locking_range _ _ _ _ _ _) as [o reg] eqn:E.
    destruct (try_locking_cases _ _ _ _ _ _ _ _ E) as (C & _). cbn [range_end] in C.
    inversion C as [r' Hfree HL|r' lk Hin Hc HL|r' lk Hin Hc HL]; subst o r'.
    - apply K; auto. destruct Lx. constructor; auto.
    - exfalso. destruct (Ux lk Hin) as [_ X]. now apply X.
    - exfalso. destruct (Ux lk Hin) as [X _]. now apply X. }
  destruct ph; cbn [lock_turn is_reg] in *; auto.
  - apply R; auto. discriminate.
  - destruct (wait_count f (-1) w) as [r1 w1] eqn:Ec. destruct Se as [Se|Se]; [|discriminate].
    destruct (count_alone _ _ _ _ _ Ec) as (C1 & C2 & C3 & C4). destruct (C3 Se) as [C5 ->]. destruct (C4 (proj1 Se)) as (C6 & C7 & C8).
    apply R; auto; [|apply (lo_pid _ _ C1)|unfold unopposed; rewrite C7; exact (Un eq_refl)].
    destruct L as [(o & L1 & L2 & L3) L4 L5]. constructor.
    + exists o. rewrite (lo_fds _ _ C1). auto.
    + now rewrite (lo_inodes _ _ C1).
    + intros e He. apply (L5 e), (lo_io _ _ C1), He.
Qed.

(** Nobody else is in the way: those who hold the lock or sleep are readers, like [j]. *)
Definition way_clear (kind : nat -> option bkind) (held asleep : nat -> bool) (j : nat) (k : bkind) : Prop :=
  forall l k2, l <> j -> kind l = Some k2 -> held l = true \/ asleep l = true -> k2 = BReader /\ k = BReader.

Lemma stream_lockable u g c ps held rg cl i j k b : ginv u g c ps held rg cl i -> nth_error (g_streams g) j = Some (k, b) ->
  lockable (b_raw b) (g_world g) (is_reader k).
Proof.
  intros G N. destruct (gi_streams _ _ _ _ _ _ _ _ G _ _ _ N) as [(o & R & Hu & Ha & Hr & Hw) U K Id Cl Rg Mi].
  pose proof (rp_live _ _ _ _ _ _ R) as L. constructor.
  - exists o. split; [apply (lv_fd _ _ _ _ L)|]. split; [congruence|]. destruct k; cbn [is_reader] in *.
    + apply Hr. apply (rp_rd _ _ _ _ _ _ R). reflexivity.
    + apply Hw. exact K.
    + apply Hw. exact K.
  - rewrite U. rewrite (gi_ino _ _ _ _ _ _ _ _ G). discriminate.
  - apply (gi_io _ _ _ _ _ _ _ _ G).
Qed.
Lemma way_unopposed u W c ps held rg cl asleep i j k b q :
  winv u W c ps held rg cl asleep i -> nth_error (g_streams (wg W)) j = Some (k, b) -> whole q k -> rg j = false ->
  way_clear (kind_of (wg W)) held asleep j k -> unopposed (b_raw b) q (g_world (wg W)).
Proof.
  intros V N (Q1 & Q2 & Q3) Hj Cl lk Hlk. pose proof (wi_group _ _ _ _ _ _ _ _ _ V) as G.
  rewrite (si_uid _ _ _ _ _ _ _ _ _ _ (gi_streams _ _ _ _ _ _ _ _ G _ _ _ N)) in Hlk.
  destruct (gi_table _ _ _ _ _ _ _ _ G lk Hlk) as (l & k2 & b2 & Nl & Hl).
  assert (M : In lk (mine (g_world (wg W)) u (fd_of (b_raw b2)))) by (apply filter_In; split; [exact Hlk|now apply Z.eqb_eq]).
  rewrite (si_mine _ _ _ _ _ _ _ _ _ _ (gi_streams _ _ _ _ _ _ _ _ G _ _ _ Nl)) in M.
  assert (Hr : rg l = true) by (destruct (rg l); [reflexivity|destruct M]). rewrite Hr in M. destruct M as [<-|[]].
  assert (Hn : l <> j) by congruence. clear Hl.
  assert (X : held l = true \/ asleep l = true).
  { assert (Kl : kind_of (wg W) l = Some k2) by (apply kind_nth; eauto).
    pose proof (wi_waits _ _ _ _ _ _ _ _ _ V l k2 Kl) as Y. destruct (wg_waits W l) as [[q0 p0]|]; cbn in Y; [tauto|].
    left. destruct Y. congruence. }
  destruct (Cl l k2 Hn ltac:(apply kind_nth; eauto) X) as [-> ->]. cbn [is_reader] in *.
  split.
  - intros [Y _]. cbn in Y. revert Y. apply (gi_inj _ _ _ _ _ _ _ _ G l j BReader b2 BReader b); auto.
  - intros (_ & Y & _). apply Y. cbn. auto.
Qed.

Lemma served u W c ps held rg cl asleep i j k : winv u W c ps held rg cl asleep i ->
  kind_of (wg W) j = Some k -> held j = false -> asleep j = true ->
  way_clear (kind_of (wg W)) held asleep j k -> kernel_room (g_world (wg W)) u k ->
  exists W1, run_wact u (WTurn j) W = (GGot, W1).
Proof.
  intros V Hk Hh Ha Cl Kr. pose proof (wi_group _ _ _ _ _ _ _ _ _ V) as G.
  pose proof (wi_waits _ _ _ _ _ _ _ _ _ V j k Hk) as Wj. apply kind_nth in Hk. destruct Hk as (b & N).
  cbn [run_wact]. rewrite N. destruct (wg_waits W j) as [[q ph]|]; cbn in Wj; [|destruct Wj; congruence].
  destruct Wj as (_ & Wq & Ws & Wr). unfold b_lock_turn. cbn [set_world b_raw b_w].
  pose proof (si_uid _ _ _ _ _ _ _ _ _ _ (gi_streams _ _ _ _ _ _ _ _ G _ _ _ N)) as U0.
  destruct (turn_goes_through (b_raw b) q ph (g_world (wg W)) k Wq) as (w' & E).
  - rewrite (proj2 (proj2 Wq)). eapply stream_lockable; eauto.
  - now rewrite U0.
  - left. now rewrite U0.
  - intros Hr. rewrite Hr in Wr. eapply way_unopposed; eauto; congruence.
  - rewrite E. unfold after_turn. cbn. eauto.
Qed.
Lemma served_begin u W c ps held rg cl asleep i j k t : winv u W c ps held rg cl asleep i ->
  kind_of (wg W) j = Some k -> held j = false -> asleep j = false -> ~ wrong_nonneg t ->
  way_clear (kind_of (wg W)) held asleep j k -> kernel_room (g_world (wg W)) u k ->
  exists W1, run_wact u (WAct (GLock j t)) W = (GGot, W1).
Proof.
  intros V Hk Hh Ha Ht Cl Kr. pose proof (wi_group _ _ _ _ _ _ _ _ _ V) as G.
  pose proof (wi_waits _ _ _ _ _ _ _ _ _ V j k Hk) as Wj. apply kind_nth in Hk. destruct Hk as (b & N).
  destruct (wg_waits W j) as [[q ph]|] eqn:Ew; cbn in Wj; [destruct Wj; congruence|]. destruct Wj as [_ Rj]. rewrite Hh in Rj.
  destruct (step_reset_inv _ _ _ _ _ _ _ _ _ _ _ G N) as (b2 & i2 & E2 & Raw & Hreg & Hpid & Er & G2).
  destruct (step_reset _ _ _ _ _ _ _ _ _ _ _ G N) as (b2' & o & o2 & i2' & E2' & _ & _ & Ev & _).
  rewrite E2 in E2'. injection E2' as <-. pose proof (ev_frame _ _ _ _ Ev) as F. cbn in F.
  set (g2 := mkGroup (replace j (k, b2) (g_streams (wg W))) (b_w b2)) in *.
  assert (N2 : nth_error (g_streams g2) j = Some (k, b2)) by (apply (replace_same _ _ _ _ N)).
  assert (V2 : winv u (mkW g2 (wg_waits W)) c ps held rg cl asleep i2).
  { constructor; cbn [wg wg_waits]; [exact G2|]. intros l k2 Hl. unfold g2 in Hl. rewrite (kind_other _ _ _ _ _ _ _ N) in Hl.
    apply (wait_ok_settled u (g_world (wg W))); [unfold settled; cbn [g2 g_world]; now rewrite Hreg, Hpid|].
    apply (wi_waits _ _ _ _ _ _ _ _ _ V l k2 Hl). }
  destruct (gi_streams _ _ _ _ _ _ _ _ G2 _ _ _ N2) as [(o3 & R3 & _ & _ & _ & _) U3 K3 _ _ _ _].
  pose proof (rp_live _ _ _ _ _ _ R3) as L3. cbn [set_world b_raw b_w] in L3.
  set (q := mkReq None 0 (negb (f_writable (b_raw b2))) (parg_opt t) (w_clock (b_w b2))).
  assert (Wq : whole q k) by (split; [reflexivity|split; [reflexivity|cbn [q_shared q]; now rewrite K3, negb_involutive]]).
  destruct (turn_goes_through (b_raw b2) q PhReg (b_w b2) k Wq) as (w' & E).
  - rewrite (proj2 (proj2 Wq)). eapply (stream_lockable u g2); eauto.
  - rewrite U3. intros s Hs Hp Hu. rewrite (fr_kern _ _ _ _ F) in Hs. rewrite (fr_pid _ _ _ _ F) in Hp. apply (Kr s Hs Hp Hu).
  - now right.
  - intros _. apply (way_unopposed u (mkW g2 (wg_waits W)) c ps held rg cl asleep i2 j k b2 q V2 N2 Wq Rj).
    intros l k2 Hl Hkl. cbn [wg] in Hkl. unfold g2 in Hkl. rewrite (kind_other _ _ _ _ _ _ _ N) in Hkl. apply (Cl l k2 Hl Hkl).
  - cbn [run_wact]. rewrite N. unfold b_lock_begin. rewrite E2. unfold lock_begin, check_seekable, check_closed, bind.
    rewrite (lv_open _ _ _ _ L3), (lv_seek _ _ _ _ L3). unfold ret. fold q.
    assert (bad_nonneg t = false) as ->.
    { unfold wrong_nonneg in Ht. destruct t as [|z|]; cbn; auto; [|exfalso; auto]. apply Z.ltb_ge. destruct (Z.lt_ge_cases z 0); [|lia].
      exfalso. apply Ht. right. eauto. }
    assert ((q_shared q && negb (f_readable (b_raw b2))) || (negb (q_shared q) && negb (f_writable (b_raw b2))) = false) as ->.
    { rewrite (proj2 (proj2 Wq)), K3. destruct k; cbn [is_reader negb andb orb]; auto.
      pose proof (rp_rd _ _ _ _ _ _ R3 eq_refl) as X. cbn [set_world b_raw] in X. now rewrite X. }
    rewrite E. unfold after_turn. eauto.
Qed.

(** Whatever happened before: once the others have let go, a sleeper that is woken up gets the
    lock, and so does a new call. *)
Theorem C83_sleeper_is_served : forall u g c ps acts outs W' j k,
  together u g c ps -> (forall d, ~ In (WAct (GData d)) acts) \/ unread_only g ->
  run_wacts u acts (at_rest g) = (outs, W') -> wobeys u nobody (fun _ => true) nobody acts (at_rest g) ->
  let held' := after_all wheld_after nobody acts outs in
  let asleep' := after_all asleep_after nobody acts outs in
  kind_of g j = Some k -> held' j = false ->
  way_clear (kind_of g) held' asleep' j k -> kernel_room (g_world (wg W')) u k ->
  (asleep' j = true -> exists W'', run_wact u (WTurn j) W' = (GGot, W''))
  /\ (asleep' j = false -> forall t, ~ wrong_nonneg t -> exists W'', run_wact u (WAct (GLock j t)) W' = (GGot, W'')).
Proof.
  intros u g c ps acts outs W' j k T Sf E O held' asleep' Hk Hh Cl Kr. destruct (together_winv _ _ _ _ T) as (i & V).
  destruct (wruns_serial u acts (at_rest g) c ps nobody _ _ _ i V) with (outs := outs) (W' := W') as (c' & ps' & rg' & i' & R & V' & _); auto.
  { intros d Hd. destruct Sf as [Sf|Sf]; auto. exfalso. eapply Sf; eauto. }
  pose proof (wkind_same u acts (at_rest g)) as Kg. rewrite E in Kg. cbn [snd wg at_rest] in Kg.
  assert (Cl' : way_clear (kind_of (wg W')) held' asleep' j k) by (intros l k2 Hl; rewrite Kg; apply Cl; auto).
  split.
  - intros Ha. eapply served; eauto. now rewrite Kg.
  - intros Ha t Ht. eapply served_begin; eauto. now rewrite Kg.
Qed.

(** * A call without timeout never fails *)
Lemma patient_turn f q ph w k t w' :
  whole q k -> lockable f w (q_shared q) -> q_timeout q = None -> f_enforced f = None ->
  settled w (uid_of f) \/ ph = PhReg -> (is_reg ph = false -> mine w (uid_of f) (fd_of f) = []) ->
  lock_turn f q ph w = (t, w') -> forall e, t <> TDone (Err e).
Proof.
  intros (Q1 & Q2 & Q3) L Qt Qe Se Own.
  assert (Lb : low_level_blocking f q = true) by (unfold low_level_blocking; now rewrite Qt, Qe).
  assert (A : forall x t w', turn_attempt f q x = (t, w') -> forall e, t <> TDone (Err e)).
  { intros x t0 w0 H e ->. unfold turn_attempt in H. rewrite Lb in H. destruct (lock_attempt _ _ _ _ _) as [[[]|]]; discriminate. }
  assert (K : forall x t w', lockable f x (q_shared q) -> turn_kern f q x = (t, w') -> forall e, t <> TDone (Err e)).
  { intros x t0 w0 Lx H. unfold turn_kern in H. destruct (lockable_pre f q x Lx ltac:(lia)) as (io & Ep). rewrite Ep in H. eapply A; eauto. }
  assert (R : forall first x t w', (first = false -> r_pid (w_reg x) = w_pid x) -> lockable f x (q_shared q) ->
     mine x (uid_of f) (fd_of f) = [] -> turn_register f q first x = (t, w') -> forall e, t <> TDone (Err e)).
  { intros first x t0 w0 Hf Lx Ox H. unfold turn_register, register_once in H.
    assert (Er : (if first then check_forking (w_pid x) (w_reg x) else w_reg x) = registry_of x).
    { destruct first; [reflexivity|]. symmetry. now apply registry_of_id, Hf. }
    rewrite Er, Q1, Q2 in H. destruct (try_locking_range _ _ _ _ _ _) as [o reg] eqn:E.
    destruct (try_locking_cases _ _ _ _ _ _ _ _ E) as (C & Hp & (en & Ee) & _ & _). cbn [range_end] in C.
    inversion C as [r' Hfree HL|r' lk Hin Hc HL|r' lk Hin Hc HL]; subst o r'.
    - eapply K; [|exact H]. destruct Lx. constructor; auto.
    - rewrite Lb in H. unfold wait_count, add_waiting in H. cbn [w_reg set_reg] in H. rewrite Ee in H. injection H as <- <-. discriminate.
    - exfalso. assert (X : In lk (mine x (uid_of f) (fd_of f))) by (apply filter_In; split; [exact Hin|apply Z.eqb_eq, Hc]).
      now rewrite Ox in X. }
  destruct ph; cbn [lock_turn is_reg] in *; intros H; eauto.
  - eapply R; eauto. discriminate.
  - destruct (wait_count f (-1) w) as [r1 w1] eqn:Ec. destruct Se as [Se|Se]; [|discriminate].
    destruct (count_alone _ _ _ _ _ Ec) as (C1 & C2 & C3 & C4). destruct (C3 Se) as [C5 ->]. destruct (C4 (proj1 Se)) as (C6 & C7 & C8).
    eapply R; [| | |exact H]; auto; [|unfold mine; rewrite C7; apply Own; reflexivity].
    destruct L as [(o & L1 & L2 & L3) L4 L5]. constructor.
    + exists o. rewrite (lo_fds _ _ C1). auto.
    + now rewrite (lo_inodes _ _ C1).
    + intros e He. apply (L5 e), (lo_io _ _ C1), He.
Qed.

(** The lock calls on stream [j] are made without timeout. *)
Definition no_timeout (j : nat) (acts : list wact) : Prop := forall t, In (WAct (GLock j t)) acts -> t = PNone.
Definition not_enforced (g : group) (j : nat) : Prop := forall k b, nth_error (g_streams g) j = Some (k, b) -> f_enforced (b_raw b) = None.
Definition patient_wait (W : wgroup) (j : nat) : Prop := forall q ph, wg_waits W j = Some (q, ph) -> q_timeout q = None.

Lemma begin_request k t b r q b' ph : b_lock_begin k t b = (r, q, b') -> r = TWait ph -> q_timeout q = parg_opt t.
Proof.
  unfold b_lock_begin, lock_begin. destruct (reset_buffers k b) as [[] b1]; [|intros [= <- _ _]; discriminate].
  destruct (check_seekable _ _) as [[] w1]; [|intros [= <- _ _]; discriminate].
  destruct (bad_nonneg t); [intros [= <- _ _]; discriminate|]. destruct (_ || _); [intros [= <- _ _]; discriminate|].
  destruct (lock_turn _ _ _ _) as [t1 w2]. intros [= _ <- _] _. reflexivity.
Qed.
Lemma patient_step u a W out W1 j : run_wact u a W = (out, W1) -> (forall t, a = WAct (GLock j t) -> t = PNone) ->
  patient_wait W j -> patient_wait W1 j.
Proof.
  intros E Ht Hp.
  assert (X : forall l k q r b' o W2, after_turn W l k q r b' = (o, W2) ->
     (forall ph, l = j -> r = TWait ph -> q_timeout q = None) -> patient_wait W2 j).
  { intros l k q r b' o W2 H Hq q2 ph2 E2. unfold after_turn in H.
    destruct (Nat.eq_dec l j) as [->|Hl].
    - destruct r as [[]|ph]; injection H as _ <-; cbn [wg_waits] in E2; rewrite set_at_same in E2; try discriminate.
      injection E2 as <- <-. eapply Hq; eauto.
    - destruct r as [[]|ph]; injection H as _ <-; cbn [wg_waits] in E2; rewrite set_at_other in E2 by auto; eapply Hp; eauto. }
  assert (Y : forall a0, (let '(o, g') := run_gact u a0 (wg W) in (o, mkW g' (wg_waits W))) = (out, W1) -> patient_wait W1 j).
  { intros a0 H. destruct (run_gact u a0 (wg W)) as [o g']. injection H as _ <-. exact Hp. }
  destruct a as [a|l|dt]; cbn [run_wact] in E.
  - destruct a as [l t|l op|l|K|d]; try (apply Y with (a0 := _) in E; exact E).
    destruct (nth_error (g_streams (wg W)) l) as [[k b]|] eqn:N; [|injection E as _ <-; exact Hp].
    destruct (b_lock_begin k t _) as [[r q] b'] eqn:Eb. eapply X; [exact E|]. intros ph -> Hr.
    rewrite (begin_request _ _ _ _ _ _ _ Eb Hr). now rewrite (Ht t eq_refl).
  - destruct (nth_error (g_streams (wg W)) l) as [[k b]|] eqn:N; [|injection E as _ <-; exact Hp].
    destruct (wg_waits W l) as [[q ph]|] eqn:Ew; [|injection E as _ <-; exact Hp].
    destruct (b_lock_turn q ph _) as [r b']. eapply X; [exact E|]. intros ph2 -> _. eapply Hp; eauto.
  - injection E as _ <-. exact Hp.
Qed.
Lemma patient_run u j : forall acts W outs W', run_wacts u acts W = (outs, W') -> no_timeout j acts -> patient_wait W j -> patient_wait W' j.
Proof.
  induction acts as [|a acts IH]; intros W outs W' E Hn Hp; cbn [run_wacts] in E; [injection E as _ <-; exact Hp|].
  destruct (run_wact u a W) as [out W1] eqn:E1. destruct (run_wacts u acts W1) as [outs2 W2] eqn:E2. injection E as _ <-.
  eapply IH; eauto.
  - intros t Ht. apply Hn. now right.
  - eapply patient_step; eauto. intros t ->. apply Hn. now left.
Qed.

Theorem C83_patient_calls_never_fail : forall u g c ps acts outs W' j,
  together u g c ps -> (forall d, ~ In (WAct (GData d)) acts) \/ unread_only g ->
  run_wacts u acts (at_rest g) = (outs, W') -> wobeys u nobody (fun _ => true) nobody acts (at_rest g) ->
  let held' := after_all wheld_after nobody acts outs in
  let asleep' := after_all asleep_after nobody acts outs in
  kind_of g j <> None -> held' j = false -> no_timeout j acts -> not_enforced g j ->
  (asleep' j = true -> forall e, fst (run_wact u (WTurn j) W') <> GError e)
  /\ (asleep' j = false -> forall e, fst (run_wact u (WAct (GLock j PNone)) W') <> GError e).
Proof.
  intros u g c ps acts outs W' j T Sf E O held' asleep' Hk Hh Ht He. destruct (together_winv _ _ _ _ T) as (i0 & V0).
  destruct (wruns_serial u acts (at_rest g) c ps nobody _ _ _ i0 V0) with (outs := outs) (W' := W') as (c' & ps' & rg & i & _ & V & Rw); auto.
  { intros d Hd. destruct Sf as [Sf|Sf]; auto. exfalso. eapply Sf; eauto. }
  pose proof (wkind_same u acts (at_rest g)) as Kg. rewrite E in Kg. cbn [snd wg at_rest] in Kg.
  fold held' asleep' in V. pose proof (wi_group _ _ _ _ _ _ _ _ _ V) as G.
  pose proof (patient_run u j acts _ _ _ E Ht ltac:(intros q ph X; discriminate X)) as Pw.
  destruct (kind_of g j) as [k|] eqn:Ek; [|congruence]. rewrite <- Kg in Ek.
  pose proof (wi_waits _ _ _ _ _ _ _ _ _ V j k Ek) as Wj. apply kind_nth in Ek. destruct Ek as (b & N).
  assert (En : f_enforced (b_raw b) = None).
  { assert (X : kind_of g j = Some k) by (rewrite <- Kg; apply kind_nth; eauto). apply kind_nth in X. destruct X as (b0 & N0).
    destruct (Rw j k b0 N0) as (b1 & N1 & Er). pose proof (He k b0 N0). congruence. }
  pose proof (gi_streams _ _ _ _ _ _ _ _ G _ _ _ N) as S.
  split; intros Ha e.
  - cbn [run_wact]. rewrite N. destruct (wg_waits W' j) as [[q ph]|] eqn:Ew; cbn in Wj; [|destruct Wj; congruence].
    destruct Wj as (_ & Wq & Ws & Wr). unfold b_lock_turn. cbn [set_world b_raw b_w].
    destruct (lock_turn (b_raw b) q ph (g_world (wg W'))) as [t w'] eqn:Et.
    assert (X : forall e, t <> TDone (Err e)).
    { eapply patient_turn; [exact Wq| | | | | |exact Et]; auto.
      - rewrite (proj2 (proj2 Wq)). eapply stream_lockable; eauto.
      - eapply Pw; eauto.
      - left. now rewrite (si_uid _ _ _ _ _ _ _ _ _ _ S).
      - intros Hr. rewrite Hr in Wr. rewrite (si_uid _ _ _ _ _ _ _ _ _ _ S), (si_mine _ _ _ _ _ _ _ _ _ _ S). rewrite Wr, Hh. reflexivity. }
    unfold after_turn. destruct t as [[|e0]|]; cbn [fst]; try discriminate. intros _. exact (X e0 eq_refl).
  - destruct (wg_waits W' j) as [[q ph]|] eqn:Ew; cbn in Wj; [destruct Wj; congruence|]. destruct Wj as [_ Rj]. rewrite Hh in Rj.
    destruct (step_reset_inv _ _ _ _ _ _ _ _ _ _ _ G N) as (b2 & i2 & E2 & Raw & Hreg & Hpid & Er & G2).
    set (g2 := mkGroup (replace j (k, b2) (g_streams (wg W'))) (b_w b2)) in *.
    assert (N2 : nth_error (g_streams g2) j = Some (k, b2)) by (apply (replace_same _ _ _ _ N)).
    pose proof (gi_streams _ _ _ _ _ _ _ _ G2 _ _ _ N2) as S2.
    destruct (gi_streams _ _ _ _ _ _ _ _ G2 _ _ _ N2) as [(o3 & R3 & _ & _ & _ & _) U3 K3 _ _ _ Mi3].
    pose proof (rp_live _ _ _ _ _ _ R3) as L3. cbn [set_world b_raw b_w] in L3.
    set (q := mkReq None 0 (negb (f_writable (b_raw b2))) (parg_opt PNone) (w_clock (b_w b2))).
    assert (Wq : whole q k) by (split; [reflexivity|split; [reflexivity|cbn [q_shared q]; now rewrite K3, negb_involutive]]).
    cbn [run_wact]. rewrite N. unfold b_lock_begin. rewrite E2. unfold lock_begin, check_seekable, check_closed, bind.
    rewrite (lv_open _ _ _ _ L3), (lv_seek _ _ _ _ L3). unfold ret. cbn [bad_nonneg]. fold q.
    assert ((q_shared q && negb (f_readable (b_raw b2))) || (negb (q_shared q) && negb (f_writable (b_raw b2))) = false) as ->.
    { rewrite (proj2 (proj2 Wq)), K3. destruct k; cbn [is_reader negb andb orb]; auto.
      pose proof (rp_rd _ _ _ _ _ _ R3 eq_refl) as X. cbn [set_world b_raw] in X. now rewrite X. }
    destruct (lock_turn (b_raw b2) q PhReg (b_w b2)) as [t w'] eqn:Et.
    assert (X : forall e, t <> TDone (Err e)).
    { eapply patient_turn; [exact Wq| | | | | |exact Et]; auto.
      - rewrite (proj2 (proj2 Wq)). change (b_w b2) with (g_world g2). eapply stream_lockable; eauto.
      - now rewrite Raw.
      - intros _. change (b_w b2) with (g_world g2). rewrite U3, Mi3, Rj. reflexivity. }
    unfold after_turn. destruct t as [[|e0]|]; cbn [fst]; try discriminate. intros _. exact (X e0 eq_refl).
Qed.

(** Nobody holds the lock, no other process is in the way, someone sleeps: then there is a
    sleeper whose next turn succeeds; the sleepers do not block each other for ever. *)
Theorem C83_no_deadlock : forall u g c ps acts outs W',
  together u g c ps -> (forall d, ~ In (WAct (GData d)) acts) \/ unread_only g ->
  run_wacts u acts (at_rest g) = (outs, W') -> wobeys u nobody (fun _ => true) nobody acts (at_rest g) ->
  let held' := after_all wheld_after nobody acts outs in
  let asleep' := after_all asleep_after nobody acts outs in
  (forall j k, kind_of g j = Some k -> held' j = false) ->
  (forall s, In s (w_kern (g_world (wg W'))) -> k_pid s <> w_pid (g_world (wg W')) -> k_ino s <> u) ->
  (exists j, kind_of g j <> None /\ asleep' j = true) ->
  exists j W'', asleep' j = true /\ run_wact u (WTurn j) W' = (GGot, W'').
Proof.
  intros u g c ps acts outs W' T Sf E O held' asleep' Hf Kr (j0 & Hj0 & Ha0). destruct (together_winv _ _ _ _ T) as (i0 & V0).
  destruct (wruns_serial u acts (at_rest g) c ps nobody _ _ _ i0 V0) with (outs := outs) (W' := W') as (c' & ps' & rg & i & _ & V & Rw); auto.
  { intros d Hd. destruct Sf as [Sf|Sf]; auto. exfalso. eapply Sf; eauto. }
  pose proof (wkind_same u acts (at_rest g)) as Kg. rewrite E in Kg. cbn [snd wg at_rest] in Kg.
  fold held' asleep' in V. pose proof (wi_group _ _ _ _ _ _ _ _ _ V) as G.
  assert (Turn : forall j k b, nth_error (g_streams (wg W')) j = Some (k, b) -> asleep' j = true ->
     rg j = true \/ (forall l k2 b2, nth_error (g_streams (wg W')) l = Some (k2, b2) -> rg l = false) ->
     exists W'', run_wact u (WTurn j) W' = (GGot, W'')).
  { intros j k b N Ha Hr. assert (Ek : kind_of (wg W') j = Some k) by (apply kind_nth; eauto).
    pose proof (wi_waits _ _ _ _ _ _ _ _ _ V j k Ek) as Wj. pose proof (Hf j k ltac:(now rewrite <- Kg)) as Hh.
    cbn [run_wact]. rewrite N. destruct (wg_waits W' j) as [[q ph]|] eqn:Ew; cbn in Wj; [|destruct Wj; congruence].
    destruct Wj as (_ & Wq & Ws & Wr). unfold b_lock_turn. cbn [set_world b_raw b_w].
    pose proof (si_uid _ _ _ _ _ _ _ _ _ _ (gi_streams _ _ _ _ _ _ _ _ G _ _ _ N)) as U0.
    destruct (turn_goes_through (b_raw b) q ph (g_world (wg W')) k Wq) as (w' & Et).
    - rewrite (proj2 (proj2 Wq)). eapply stream_lockable; eauto.
    - rewrite U0. intros s Hs Hp Hu. exfalso. exact (Kr s Hs Hp Hu).
    - left. now rewrite U0.
    - intros Hph. rewrite Hph in Wr. destruct Hr as [Hr|Hr]; [congruence|]. intros lk Hlk. exfalso.
      rewrite U0 in Hlk. destruct (gi_table _ _ _ _ _ _ _ _ G lk Hlk) as (l & k2 & b2 & Nl & Hl).
      assert (M : In lk (mine (g_world (wg W')) u (fd_of (b_raw b2)))) by (apply filter_In; split; [exact Hlk|now apply Z.eqb_eq]).
      rewrite (si_mine _ _ _ _ _ _ _ _ _ _ (gi_streams _ _ _ _ _ _ _ _ G _ _ _ Nl)), (Hr l k2 b2 Nl) in M. destruct M.
    - rewrite Et. unfold after_turn. cbn. eauto. }
  rewrite <- Kg in Hj0. destruct (kind_of (wg W') j0) as [k0|] eqn:E0; [|congruence]. apply kind_nth in E0. destruct E0 as (b0 & N0).
  destruct (existsb rg (seq 0 (List.length (g_streams (wg W'))))) eqn:Ex.
  - apply existsb_exists in Ex. destruct Ex as (j & Hj & Hr). apply in_seq in Hj.
    destruct (nth_error (g_streams (wg W')) j) as [[k b]|] eqn:N; [|apply nth_error_None in N; lia].
    assert (Ek : kind_of (wg W') j = Some k) by (apply kind_nth; eauto).
    pose proof (wi_waits _ _ _ _ _ _ _ _ _ V j k Ek) as Wj. pose proof (Hf j k ltac:(now rewrite <- Kg)) as Hh.
    assert (Ha : asleep' j = true) by (destruct (wg_waits W' j) as [[q ph]|]; cbn in Wj; [tauto|destruct Wj; congruence]).
    destruct (Turn j k b N Ha (or_introl Hr)) as (W'' & X). eauto.
  - destruct (Turn j0 k0 b0 N0 Ha0) as (W'' & X); [|eauto]. right. intros l k2 b2 Nl. destruct (rg l) eqn:Hl; [|reflexivity].
    assert (Y : existsb rg (seq 0 (List.length (g_streams (wg W')))) = true); [|congruence].
    apply existsb_exists. exists l. split; [|exact Hl]. apply in_seq. cbn. apply nth_error_Some_lt in Nl || (assert (nth_error (g_streams (wg W')) l <> None) by congruence; apply nth_error_Some in H; lia).
Qed.

(** * Examples *)
Definition wpermittedb (kind : nat -> option bkind) (u : uid) (held cl asleep : nat -> bool) (a : wact) (out : gout) (w : world) : bool :=
  match a with
  | WAct (GLock j _) => (match kind j with None => false | _ => true end) && negb (asleep j)
  | WAct (GOp j _ as a) | WAct (GUnlock j as a) => permittedb kind u held cl a out w && negb (asleep j)
  | WAct a => permittedb kind u held cl a out w
  | WTurn j => (match kind j with None => false | _ => true end) && asleep j
  | WTick _ => true
  end.
Fixpoint wobeysb (u : uid) (held cl asleep : nat -> bool) (acts : list wact) (W : wgroup) : bool :=
  match acts with
  | [] => true
  | a :: r => let '(out, W1) := run_wact u a W in
              wpermittedb (kind_of (wg W)) u held cl asleep a out (g_world (wg W))
              && wobeysb u (wheld_after held a out) (wclean_after cl a out) (asleep_after asleep a out) r W1
  end.
Lemma wobeysb_ok u : forall acts held cl asleep W, wobeysb u held cl asleep acts W = true -> wobeys u held cl asleep acts W.
Proof.
  induction acts as [|a acts IH]; intros held cl asleep W; cbn [wobeysb wobeys]; auto.
  destruct (run_wact u a W) as [out W1]. rewrite andb_true_iff. intros [H1 H2]. split; [|auto].
  destruct a as [a|j|dt]; cbn [wpermittedb wpermitted] in *; auto.
  - destruct a as [j t|j op|j|K|d].
    + rewrite andb_true_iff, negb_true_iff in H1. destruct H1 as [H1 H3]. split; auto. destruct (kind_of (wg W) j); congruence.
    + apply andb_true_iff in H1. destruct H1 as [H1 H3]. apply negb_true_iff in H3. split; auto. now apply permittedb_ok.
    + apply andb_true_iff in H1. destruct H1 as [H1 H3]. apply negb_true_iff in H3. split; auto. now apply permittedb_ok.
    + now apply permittedb_ok.
    + now apply permittedb_ok.
  - rewrite andb_true_iff in H1. destruct H1 as [H1 H3]. split; auto. destruct (kind_of (wg W) j); congruence.
Qed.

(** Two counters.  Stream 1 asks while stream 0 is at it and sleeps; woken too early it sleeps
    on; another process takes the lock before it is woken again, so that it sleeps in the
    kernel while stream 0 sleeps on its account; in the end all three have counted. *)
Definition step_up (j : nat) (v : Z) : list wact :=
  map WAct [GOp j (BoSeek 0 0); GOp j (BoRead (Some 1)); GOp j (BoSeek 0 0); GOp j (BoWrite [v]); GUnlock j].
Definition queue : list wact :=
  [WAct (GLock 0 PNone); WAct (GLock 1 PNone); WTick 3; WTurn 1] ++ step_up 0 6
  ++ [WAct (GOther taken); WTurn 1; WAct (GLock 0 (PInt 5)); WAct (GData [40]); WTurn 0; WAct (GOther []); WTurn 1; WTurn 0]
  ++ step_up 1 41 ++ [WTick 2; WTurn 0] ++ step_up 0 42.
Definition counters : group := demo_group [BRandom; BRandom] [5] [].
Example C82_example :
  let '(outs, W) := run_wacts (1, 10) queue (at_rest counters) in
  outs = [GGot; GSilent; GSilent; GSilent; GRes (OInt 0); GRes (OBytes [5]); GRes (OInt 0); GRes (OInt 1); GReleased]
      ++ [GSilent; GSilent; GSilent; GSilent; GSilent; GSilent; GGot; GSilent]
      ++ [GRes (OInt 0); GRes (OBytes [40]); GRes (OInt 0); GRes (OInt 1); GReleased; GSilent; GGot]
      ++ [GRes (OInt 0); GRes (OBytes [41]); GRes (OInt 0); GRes (OInt 1); GReleased]
  /\ content (g_world (wg W)) (1, 10) = [42].
Proof. vm_compute. auto. Qed.
Lemma pair_unread data : unread_only (demo_group [BRandom; BRandom] data []).
Proof. intros [|[|[|j]]] k b N; vm_hyp N; try discriminate; injection N as <- <-; discriminate. Qed.
Example C82_hypotheses :
  together (1, 10) counters [5] start /\ unread_only counters
  /\ wobeys (1, 10) nobody (fun _ => true) nobody queue (at_rest counters).
Proof.
  split; [apply demo_pair|]. split; [apply pair_unread|]. apply wobeysb_ok. vm_compute. reflexivity.
Qed.
(** A timeout that runs out while the caller sleeps in the kernel phase gives the registry entry
    back: the other stream then gets the lock. *)
Example C83_timeout :
  fst (run_wacts (1, 10) [WAct (GOther taken); WAct (GLock 0 (PInt 5)); WAct (GLock 1 (PInt 90)); WTick 6; WTurn 0; WAct (GOther []); WTurn 1]
         (at_rest counters))
  = [GSilent; GSilent; GSilent; GSilent; GError (ELocking EAGAIN); GSilent; GGot].
Proof. vm_compute. reflexivity. Qed.

(** * Who asks first is not served first *)
Definition first_come_first_served : Prop := forall u g c ps acts outs W' j l t W'',
  together u g c ps -> unread_only g -> run_wacts u acts (at_rest g) = (outs, W') ->
  wobeys u nobody (fun _ => true) nobody acts (at_rest g) ->
  after_all asleep_after nobody acts outs j = true -> kind_of g j = Some BRandom ->
  run_wact u (WAct (GLock l t)) W' = (GGot, W'') -> False.
Theorem C84_first_come_first_served_refuted : ~ first_come_first_served.
Proof.
  intros H. set (acts := map WAct [GLock 0 PNone; GLock 1 PNone; GUnlock 0]).
  destruct (run_wacts (1, 10) acts (at_rest counters)) as [outs W'] eqn:E.
  assert (Eo : outs = fst (run_wacts (1, 10) acts (at_rest counters))) by now rewrite E.
  assert (Ew : W' = snd (run_wacts (1, 10) acts (at_rest counters))) by now rewrite E.
  apply (H (1, 10) counters [5] start acts outs W' 1%nat 0%nat PNone (snd (run_wact (1, 10) (WAct (GLock 0 PNone)) W'))); auto.
  - apply demo_pair.
  - apply pair_unread.
  - apply wobeysb_ok. vm_compute. reflexivity.
  - rewrite Eo. vm_compute. reflexivity.
  - assert (X : fst (run_wact (1, 10) (WAct (GLock 0 PNone)) W') = GGot) by (rewrite Ew; vm_compute; reflexivity).
    rewrite <- X. apply surjective_pairing.
Qed.
(** A hundred times over. *)
Example C84_starvation :
  let rounds := concat (repeat [WTurn 1; WAct (GUnlock 0); WAct (GLock 0 PNone)] 100) in
  let acts := [WAct (GLock 0 PNone); WAct (GLock 1 PNone)] ++ rounds in
  fst (run_wacts (1, 10) acts (at_rest counters)) = [GGot; GSilent] ++ concat (repeat [GSilent; GReleased; GGot] 100)
  /\ wobeysb (1, 10) nobody (fun _ => true) nobody acts (at_rest counters) = true.
Proof. vm_compute. auto. Qed.

Print Assumptions C82_turns_make_the_call.
Print Assumptions C82_waiting_sections_are_serial_partial.
Print Assumptions C83_sleeper_is_served.
Print Assumptions C83_patient_calls_never_fail.
Print Assumptions C83_no_deadlock.
Print Assumptions C84_first_come_first_served_refuted.
