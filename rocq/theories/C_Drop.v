(** Final theorems about streams that the program forgets without closing them: C100. *)
From Coq Require Import ZArith Ascii String List Bool Lia Permutation.
From Verif Require Import M_Base M_Modes M_Registry M_Kernel M_World M_Raw M_Buffered M_Newline M_Text M_Wrapper M_Drop S_Bytes S_Raw S_Demo S_Buffered
  S_Newline S_Text S_Codecs S_TextFiles S_TextOut P_TextFiles P_TextBase P_Close P_BufRun C_Buffered C_Closed C_Text C_TextFiles C_TextOut.
Import ListNotations.
Open Scope Z_scope.

(** * What is expected *)
(** close() of the outermost stream. *)
Definition close_of (c : tconf) (x : outer) : T unit :=
  match x with OutRaw => on_b raw_close_b | OutBuffered => on_b (b_close (tc_kind c)) | OutText => t_close c end.
(** Like close(), but no exception comes out. *)
Definition silent (r : res unit) : res unit := match r with Err EHang => Err EHang | Err EFuel => Err EFuel | _ => Ok tt end.
(** The program has no reference left to the stream that rsopen() gave, nor to anything that leads to it. *)
Definition forgotten (h : heap) (root : obj -> bool) : Prop :=
  root (stream_of (h_outer h)) = false /\ root OWrapper = false /\ forall n, root (OProxy n) = false.
Definition nothing_kept (o : obj) : bool := false.

(** * Lemmas *)
Lemma quietly_eq m t r t' : m t = (r, t') -> quietly m t = (silent r, t').
Proof. intros H. unfold quietly. now rewrite H. Qed.
Lemma set_b_same t : set_b t (t_b t) = t.
Proof. now destruct t. Qed.
Lemma raw_close_b_closed b : f_closed (b_raw b) = true -> raw_close_b b = (Ok tt, b).
Proof.
  intros H. unfold raw_close_b, raw_close. rewrite H. cbn. destruct b as [f ? ? ? ? ?]. cbn in *. destruct f; cbn in *. subst. reflexivity.
Qed.
Lemma b_close_closed k b : f_closed (b_raw b) = true -> b_close k b = (Ok tt, b).
Proof. intros H. unfold b_close. now rewrite H. Qed.
Lemma destructor_closed c o t : f_closed (b_raw (t_b t)) = true -> destructor c o t = (Ok tt, t).
Proof.
  intros H. destruct o; cbn; try reflexivity; unfold quietly.
  - now rewrite C71_close_again.
  - unfold on_b. now rewrite b_close_closed, set_b_same.
  - unfold on_b. now rewrite raw_close_b_closed, set_b_same.
Qed.
Lemma destroy_closed c l t : f_closed (b_raw (t_b t)) = true -> destroy c l t = (Ok tt, t).
Proof. intros H. induction l as [|o l IH]; cbn; [reflexivity|]. unfold bind. now rewrite destructor_closed. Qed.
Lemma raw_close_b_closes b r b' : raw_close_b b = (r, b') -> f_closed (b_raw b') = true.
Proof. unfold raw_close_b. destruct (raw_close _ _). intros [= _ <-]. cbn. now destruct (b_raw b). Qed.
Lemma close_of_closes c x t r t' : close_of c x t = (r, t') -> f_closed (b_raw (t_b t')) = true.
Proof.
  destruct x; cbn; unfold on_b.
  - destruct (raw_close_b (t_b t)) eqn:E. intros [= _ <-]. cbn. eapply raw_close_b_closes; eauto.
  - destruct (b_close _ _) eqn:E. intros [= _ <-]. cbn. eapply C63_close_closes; eauto.
  - apply C71_close_closes.
Qed.
Lemma destructor_of c x t r t' : close_of c x t = (r, t') -> destructor c (stream_of x) t = (silent r, t').
Proof. destruct x; apply quietly_eq. Qed.
(** The outermost stream comes first: like close(). *)
Lemma destroy_outer c x l t r t' : close_of c x t = (r, t') -> destroy c (stream_of x :: l) t = (silent r, t').
Proof.
  intros E. pose proof (close_of_closes _ _ _ _ _ E) as C. cbn. unfold bind. rewrite (destructor_of _ _ _ _ _ E).
  destruct r as [[]|e]; cbn; [now apply destroy_closed|]. destruct e; try reflexivity; now apply destroy_closed.
Qed.
Definition plain (o : obj) : Prop := match o with OWrapper | OProxy _ => True | _ => False end.
Lemma destroy_plain c pre l t : Forall plain pre -> destroy c (pre ++ l) t = destroy c l t.
Proof. induction 1 as [|o p H _ IH]; [reflexivity|]. cbn. destruct o; try contradiction; exact IH. Qed.

(** ** Objects *)
Lemma obj_eqb_eq a b : obj_eqb a b = true <-> a = b.
Proof.
  destruct a, b; cbn; split; try discriminate; try reflexivity; try congruence.
  - now intros ->%String.eqb_eq.
  - intros [= ->]. apply String.eqb_refl.
Qed.
Lemma mem_obj o l : existsb (obj_eqb o) l = true <-> In o l.
Proof.
  rewrite existsb_exists. split.
  - now intros (p & H & ->%obj_eqb_eq).
  - intros H. exists o. split; [exact H|now apply obj_eqb_eq].
Qed.
Lemma referred_by h l p o : In p l -> In o (refs h p) -> referred h l o = true.
Proof. intros H R. unfold referred. apply existsb_exists. exists p. split; [exact H|now apply mem_obj]. Qed.
Lemma referred_in h l o : referred h l o = true -> exists p, In p l /\ In o (refs h p).
Proof. unfold referred. rewrite existsb_exists. intros (p & H & R%mem_obj). eauto. Qed.
Lemma in_objects h o : In o (objects h) ->
  In o (streams (h_outer h)) \/ h_wrapped h = true /\ (o = OWrapper \/ exists n, o = OProxy n /\ In n (h_cached h)).
Proof.
  unfold objects. rewrite in_app_iff. intros [H|H]; [now left|right]. destruct (h_wrapped h); [|contradiction]. split; [reflexivity|].
  destruct H as [<-|H]; [now left|right]. apply in_map_iff in H. destruct H as (n & <- & H). exists n. split; [reflexivity|now apply in_rev].
Qed.
Lemma stream_in h : In (stream_of (h_outer h)) (objects h).
Proof. unfold objects. apply in_app_iff. left. destruct (h_outer h); cbn; auto. Qed.
Lemma wrapper_in h : h_wrapped h = true -> In OWrapper (objects h).
Proof. intros H. unfold objects. apply in_app_iff. right. rewrite H. now left. Qed.
Lemma proxy_in h n : h_wrapped h = true -> In n (h_cached h) -> In (OProxy n) (objects h).
Proof. intros H I. unfold objects. apply in_app_iff. right. rewrite H. right. apply in_map, in_rev. now rewrite rev_involutive. Qed.
Lemma inner_referred h o : In o (streams (h_outer h)) -> o <> stream_of (h_outer h) -> referred h (objects h) o = true.
Proof.
  intros I N. unfold objects. destruct (h_outer h) eqn:E; cbn in I.
  - destruct I as [<-|[]]. now destruct N.
  - destruct I as [<-|[<-|[]]]; [|now destruct N]. apply referred_by with OBuffered; cbn; auto.
  - destruct I as [<-|[<-|[<-|[]]]]; [| |now destruct N].
    + apply referred_by with OBuffered; cbn; auto.
    + apply referred_by with OText; cbn; auto.
Qed.
(** Once one method has been looked up, every object is referred to. *)
Lemma cycle_referred h o : h_wrapped h = true -> h_cached h <> [] -> In o (objects h) -> referred h (objects h) o = true.
Proof.
  intros W C I. destruct (in_objects _ _ I) as [S|(_ & [->|(n & -> & M)])].
  - destruct (obj_eqb o (stream_of (h_outer h))) eqn:E.
    + apply obj_eqb_eq in E. subst o. apply referred_by with OWrapper; [now apply wrapper_in|now left].
    + apply inner_referred; [exact S|]. intros ->. assert (obj_eqb (stream_of (h_outer h)) (stream_of (h_outer h)) = true) by now apply obj_eqb_eq. congruence.
  - destruct (h_cached h) as [|n r] eqn:E; [contradiction|]. apply referred_by with (OProxy n); [|now left].
    apply proxy_in; [exact W|]. rewrite E. now left.
  - apply referred_by with OWrapper; [now apply wrapper_in|]. right. now apply in_map.
Qed.
Lemma find_none {A} (p : A -> bool) l : (forall x, In x l -> p x = false) -> find p l = None.
Proof. induction l as [|x l IH]; intros H; [reflexivity|]. cbn. rewrite H by now left. apply IH. intros y I. apply H. now right. Qed.
Lemma by_count_cycle h root : h_wrapped h = true -> h_cached h <> [] -> by_count h root = ([], objects h).
Proof.
  intros W C. unfold by_count. destruct (length (objects h)); [reflexivity|]. cbn. rewrite find_none; [reflexivity|].
  intros o I. rewrite cycle_referred by auto. apply andb_false_r.
Qed.

(** ** Reachability *)
Lemma reachable_below h l (P : obj -> Prop) : (forall o p, P o -> In p (refs h o) -> P p) ->
  forall fuel seen, (forall o, In o seen -> P o) -> forall o, In o (reachable h l fuel seen) -> P o.
Proof.
  intros Cl. induction fuel as [|k IH]; intros seen S o H; [now apply S|]. cbn in H. apply IH in H; [exact H|].
  intros p I. apply filter_In in I. destruct I as [_ I]. apply orb_true_iff in I. destruct I as [I|I].
  - apply S. now apply mem_obj.
  - apply referred_in in I. destruct I as (q & Q & R). eauto.
Qed.
Lemma reachable_in h l : forall fuel seen o, (forall p, In p seen -> In p l) -> In o (reachable h l fuel seen) -> In o l.
Proof.
  induction fuel as [|k IH]; intros seen o S H; [now apply S|]. cbn in H. apply IH in H; [exact H|].
  intros p I. now apply filter_In in I.
Qed.
Lemma reachable_seen h l : forall fuel seen o, In o l -> In o seen -> In o (reachable h l fuel seen).
Proof.
  induction fuel as [|k IH]; intros seen o L S; [exact S|]. cbn. apply IH; [exact L|]. apply filter_In. split; [exact L|].
  apply orb_true_iff. left. now apply mem_obj.
Qed.
(** [o] leads to [p] in [n] steps. *)
Fixpoint leads (h : heap) (l : list obj) (n : nat) (o p : obj) : Prop :=
  match n with O => o = p | S k => exists q, In q (refs h o) /\ In q l /\ leads h l k q p end.
Lemma reachable_leads h l : forall n fuel seen o p, (n <= fuel)%nat -> In o l -> In o seen -> leads h l n o p -> In p (reachable h l fuel seen).
Proof.
  induction n as [|n IH]; intros fuel seen o p F L S H.
  - cbn in H. subst p. now apply reachable_seen.
  - destruct fuel as [|k]; [lia|]. destruct H as (q & R & Q & H). cbn. apply (IH k _ q p); [lia|exact Q| |exact H].
    apply filter_In. split; [exact Q|]. apply orb_true_iff. right. eapply referred_by; eauto.
Qed.
Lemma garbage_in h root l o : In o (garbage h root l) -> In o l.
Proof. unfold garbage. intros H. now apply filter_In in H. Qed.

(** ** Unused wrappers, or none *)
Lemma nodup_objects x w : by_count (mkHeap x w []) nothing_kept = (rev (objects (mkHeap x w [])), []).
Proof. destruct x, w; reflexivity. Qed.
Lemma by_count_unused x w root : forgotten (mkHeap x w []) root ->
  exists pre l r, by_count (mkHeap x w []) root = (pre ++ stream_of x :: l, r) /\ Forall plain pre /\ garbage (mkHeap x w []) root r = [].
Proof.
  intros (A & B & C). cbn in A.
  destruct w.
  - exists [OWrapper]. destruct x; cbn in A.
    + exists [], []. split; [|split; [repeat constructor|reflexivity]]. cbn. rewrite A, B. cbn. rewrite A. reflexivity.
    + destruct (root ORaw) eqn:R.
      * exists [], [ORaw]. split; [cbn; rewrite R, A, B; cbn; rewrite R, A; cbn; now rewrite R|]. split; [repeat constructor|]. cbn. rewrite R. reflexivity.
      * exists [ORaw], []. split; [cbn; rewrite R, A, B; cbn; rewrite R, A; cbn; now rewrite R|]. split; [repeat constructor|reflexivity].
    + destruct (root OBuffered) eqn:Rb; destruct (root ORaw) eqn:R.
      * exists [], [ORaw; OBuffered]. split; [cbn; rewrite ?R, ?Rb, ?A, ?B; cbn; rewrite ?R, ?Rb, ?A; cbn; now rewrite ?R, ?Rb|]. split; [repeat constructor|]. cbn. rewrite ?R, ?Rb. reflexivity.
      * exists [], [ORaw; OBuffered]. split; [cbn; rewrite ?R, ?Rb, ?A, ?B; cbn; rewrite ?R, ?Rb, ?A; cbn; now rewrite ?R, ?Rb|]. split; [repeat constructor|]. cbn. rewrite ?R, ?Rb. reflexivity.
      * exists [OBuffered], [ORaw]. split; [cbn; rewrite ?R, ?Rb, ?A, ?B; cbn; rewrite ?R, ?Rb, ?A; cbn; rewrite ?R, ?Rb; cbn; now rewrite ?R|]. split; [repeat constructor|]. cbn. rewrite ?R, ?Rb. reflexivity.
      * exists [OBuffered; ORaw], []. split; [cbn; rewrite ?R, ?Rb, ?A, ?B; cbn; rewrite ?R, ?Rb, ?A; cbn; rewrite ?R, ?Rb; cbn; now rewrite ?R|]. split; [repeat constructor|reflexivity].
  - exists []. destruct x; cbn in A.
    + exists [], []. split; [|split; [constructor|reflexivity]]. cbn. rewrite A. reflexivity.
    + destruct (root ORaw) eqn:R.
      * exists [], [ORaw]. split; [cbn; rewrite R, A; cbn; now rewrite R|]. split; [constructor|]. cbn. rewrite R. reflexivity.
      * exists [ORaw], []. split; [cbn; rewrite R, A; cbn; now rewrite R|]. split; [constructor|reflexivity].
    + destruct (root OBuffered) eqn:Rb; destruct (root ORaw) eqn:R.
      * exists [], [ORaw; OBuffered]. split; [cbn; rewrite ?R, ?Rb, ?A; cbn; now rewrite ?R, ?Rb|]. split; [constructor|]. cbn. rewrite ?R, ?Rb. reflexivity.
      * exists [], [ORaw; OBuffered]. split; [cbn; rewrite ?R, ?Rb, ?A; cbn; now rewrite ?R, ?Rb|]. split; [constructor|]. cbn. rewrite ?R, ?Rb. reflexivity.
      * exists [OBuffered], [ORaw]. split; [cbn; rewrite ?R, ?Rb, ?A; cbn; rewrite ?R, ?Rb; cbn; now rewrite ?R|]. split; [constructor|]. cbn. rewrite ?R, ?Rb. reflexivity.
      * exists [OBuffered; ORaw], []. split; [cbn; rewrite ?R, ?Rb, ?A; cbn; rewrite ?R, ?Rb; cbn; now rewrite ?R|]. split; [constructor|reflexivity].
Qed.

(** * C100 *)
(** A stream that the program forgets, and whose wrapper, if any, was never asked for a method, is closed at once: the state is
    that which close() leaves, whatever inner streams the program still holds.  Exceptions of close() are lost. *)
Theorem C100_forgotten_is_closed_partial : forall c x wrapped root t r t',
  forgotten (mkHeap x wrapped []) root -> close_of c x t = (r, t') ->
  forget c (mkHeap x wrapped []) root t = (silent r, t')
  /\ garbage (mkHeap x wrapped []) root (snd (by_count (mkHeap x wrapped []) root)) = [].
Proof.
  intros c x wr root t r t' F E. destruct (by_count_unused x wr root F) as (pre & l & s & B & P & G).
  unfold forget. rewrite B. cbn [fst snd]. split; [|exact G]. rewrite destroy_plain by exact P. now apply destroy_outer.
Qed.
Example C100_forgotten_example :
  let c := conf BWriter NlLf in
  let '(_, t1) := run_wops c [WoText [97; 98]] (demo_text BWriter 16 [] []) in
  let '(r, t2) := forget c (mkHeap OutText true []) nothing_kept t1 in
  let '(r', t3) := forget c (mkHeap OutText false []) (fun o => obj_eqb o ORaw) t1 in
  content (b_w (t_b t1)) (1, 10) = [] /\ r = Ok tt /\ content (b_w (t_b t2)) (1, 10) = [97; 98] /\ f_closed (b_raw (t_b t2)) = true
  /\ r' = Ok tt /\ content (b_w (t_b t3)) (1, 10) = [97; 98] /\ f_closed (b_raw (t_b t3)) = true.
Proof. vm_compute. auto 10. Qed.

(** A stream to which the program still holds a reference, or whose wrapper or one of whose methods it holds, stays
    as it is, also when the garbage collector runs. *)
Definition held (h : heap) (root : obj -> bool) : Prop :=
  root (stream_of (h_outer h)) = true
  \/ h_wrapped h = true /\ (root OWrapper = true \/ exists n, In n (h_cached h) /\ root (OProxy n) = true).

Lemma count_down_keeps h root (P : obj -> Prop) : (forall o, P o -> root o = true \/ exists q, P q /\ In o (refs h q)) ->
  forall fuel l, (forall o, P o -> In o l) ->
  (forall o, In o (fst (count_down h root fuel l)) -> In o l /\ ~ P o) /\ (forall o, P o -> In o (snd (count_down h root fuel l)))
  /\ (forall o, In o (snd (count_down h root fuel l)) -> In o l).
Proof.
  intros HP. induction fuel as [|k IH]; intros l L; cbn; [repeat split; auto; contradiction|].
  destruct (find _ l) as [o|] eqn:F; [|repeat split; auto; contradiction].
  apply find_some in F. destruct F as [I F]. apply andb_true_iff in F. destruct F as [F1 F2]. apply negb_true_iff in F1, F2.
  assert (N : ~ P o).
  { intros X. destruct (HP o X) as [R|(q & Q & R)]; [congruence|]. rewrite (referred_by h l q o) in F2; auto. discriminate. }
  destruct (IH (filter (fun p => negb (obj_eqb o p)) l)) as (A & B & C).
  { intros p X. apply filter_In. split; [now apply L|]. apply negb_true_iff. destruct (obj_eqb o p) eqn:E; [|reflexivity].
    apply obj_eqb_eq in E. subst p. contradiction. }
  destruct (count_down h root k _) as [d r]. cbn in *. split; [|split].
  - intros p [<-|X]; [auto|]. destruct (A p X) as [X1 X2]. apply filter_In in X1. tauto.
  - exact B.
  - intros p X. apply C, filter_In in X. tauto.
Qed.
Lemma plain_or_stream h o : In o (objects h) -> plain o \/ In o (streams (h_outer h)).
Proof. intros I. destruct (in_objects _ _ I) as [S|(_ & [->|(n & -> & _)])]; cbn; auto. Qed.
Lemma destroy_only_plain c l t : Forall plain l -> destroy c l t = (Ok tt, t).
Proof. intros H. rewrite <- (app_nil_r l), destroy_plain by exact H. reflexivity. Qed.
(** Along the streams, from the outermost. *)
Lemma leads_streams h l o : (forall p, In p (streams (h_outer h)) -> In p l) -> In o (streams (h_outer h)) ->
  exists n, leads h l n (stream_of (h_outer h)) o /\ (n < length (streams (h_outer h)))%nat.
Proof.
  intros L I. destruct (h_outer h); cbn in *.
  - destruct I as [<-|[]]. exists 0%nat. split; [reflexivity|lia].
  - destruct I as [<-|[<-|[]]]; [exists 1%nat|exists 0%nat]; (split; [|lia]); cbn; [|reflexivity].
    exists ORaw. split; [auto|]. split; auto.
  - destruct I as [<-|[<-|[<-|[]]]]; [exists 2%nat|exists 1%nat|exists 0%nat]; (split; [|lia]); cbn; [| |reflexivity].
    + exists OBuffered. split; [auto|]. split; [auto|]. exists ORaw. split; [now left|]. split; auto.
    + exists OBuffered. split; [auto|]. split; auto.
Qed.
Lemma streams_nodup x : NoDup (streams x).
Proof. destruct x; repeat constructor; cbn; intuition discriminate. Qed.
Lemma streams_not_plain x o : In o (streams x) -> ~ plain o.
Proof. destruct x; cbn; intuition (subst; auto). Qed.

Lemma held_plain h root : held h root ->
  Forall plain (fst (by_count h root)) /\ Forall plain (garbage h root (snd (by_count h root))).
Proof.
  intros H.
  (* the path from a reference of the program to the outermost stream *)
  assert (exists pre, (forall o, In o pre -> plain o /\ In o (objects h)) /\ NoDup pre /\
            match pre with
            | [] => root (stream_of (h_outer h)) = true
            | [o] => root o = true /\ In (stream_of (h_outer h)) (refs h o)
            | [o; p] => root o = true /\ In p (refs h o) /\ In (stream_of (h_outer h)) (refs h p)
            | _ => False
            end) as (pre & Hp & Nd & Path).
  { destruct H as [R|(W & [R|(n & I & R)])].
    - exists []. split; [contradiction|]. split; [constructor|exact R].
    - exists [OWrapper]. split; [intros o [<-|[]]; split; [exact Logic.I|now apply wrapper_in]|]. split; [repeat constructor; auto|]. split; [exact R|now left].
    - exists [OProxy n; OWrapper]. split; [intros o [<-|[<-|[]]]; (split; [exact Logic.I|]); [now apply proxy_in|now apply wrapper_in]|].
      split; [repeat constructor; cbn; intuition discriminate|]. split; [exact R|]. split; now left. }
  set (P := fun o => In o pre \/ In o (streams (h_outer h))).
  assert (HP : forall o, P o -> root o = true \/ exists q, P q /\ In o (refs h q)).
  { intros o [I|I].
    - destruct pre as [|a [|b [|? ?]]]; [contradiction| | |contradiction].
      + destruct I as [<-|[]]. left. apply Path.
      + destruct I as [<-|[<-|[]]]; [left; apply Path|right]. exists a. split; [left; now left|apply Path].
    - destruct (obj_eqb o (stream_of (h_outer h))) eqn:E.
      + apply obj_eqb_eq in E. subst o. destruct pre as [|a [|b [|? ?]]]; [now left| | |contradiction]; right.
        * exists a. split; [left; now left|apply Path].
        * exists b. split; [left; right; now left|apply Path].
      + right. assert (N : o <> stream_of (h_outer h)) by (intros ->; assert (obj_eqb (stream_of (h_outer h)) (stream_of (h_outer h)) = true) by (now apply obj_eqb_eq); congruence).
        unfold P. destruct (h_outer h); cbn in *.
        * intuition congruence.
        * destruct I as [<-|[<-|[]]]; [exists OBuffered|congruence]. split; [right; cbn; auto|now left].
        * destruct I as [<-|[<-|[<-|[]]]]; [exists OBuffered|exists OText|congruence]; (split; [right; cbn; auto|now left]). }
  unfold by_count.
  destruct (count_down_keeps h root P HP (length (objects h)) (objects h)) as (A & B & C).
  { intros o [I|I]; [now apply Hp|]. unfold objects. apply in_app_iff. now left. }
  destruct (count_down h root (length (objects h)) (objects h)) as [d r]. cbn [fst snd] in *. split.
  - apply Forall_forall. intros o I. destruct (A o I) as [I1 N]. destruct (plain_or_stream h o I1) as [X|X]; [exact X|]. destruct N. now right.
  - apply Forall_forall. intros o I. pose proof (garbage_in _ _ _ _ I) as Ir. destruct (plain_or_stream h o (C o Ir)) as [X|X]; [exact X|exfalso].
    unfold garbage in I. apply filter_In in I. destruct I as [_ I]. apply negb_true_iff in I.
    assert (In o (reachable h r (length r) (filter root r))); [|apply mem_obj in H0; congruence].
    destruct (leads_streams h r o) as (n & Ln & Hn); [intros p Ip; apply B; now right|exact X|].
    assert (Len : (length pre + length (streams (h_outer h)) <= length r)%nat).
    { rewrite <- app_length. apply NoDup_incl_length.
      - clear - Nd Hp. induction pre as [|a l IH]; [apply streams_nodup|]. cbn. inversion Nd; subst. constructor.
        + rewrite in_app_iff. intros [Y|Y]; [contradiction|]. apply (streams_not_plain _ _ Y). apply Hp. now left.
        + apply IH; [|assumption]. intros o Io. apply Hp. now right.
      - intros p Ip. apply in_app_iff in Ip. apply B. exact Ip. }
    assert (Ro : forall a m, P a -> root a = true -> (m <= length r)%nat -> leads h r m a o -> In o (reachable h r (length r) (filter root r))).
    { intros a m Pa Ra Hm Lm. apply (reachable_leads h r m (length r) _ a o); auto. apply filter_In. auto. }
    assert (Bs : In (stream_of (h_outer h)) r) by (apply B; right; destruct (h_outer h); cbn; auto).
    destruct pre as [|a [|b [|? ?]]]; [| | |contradiction]; cbn [length] in Len.
    + apply (Ro (stream_of (h_outer h)) n); auto; [right; destruct (h_outer h); cbn; auto|lia].
    + apply (Ro a (S n)); [left; now left|apply Path|lia|]. exists (stream_of (h_outer h)). split; [apply Path|auto].
    + apply (Ro a (S (S n))); [left; now left|apply Path|lia|]. exists b. split; [apply Path|].
      split; [apply B; left; right; now left|]. exists (stream_of (h_outer h)). split; [apply Path|auto].
Qed.

Theorem C100_referenced_is_kept : forall c h root order t, held h root -> (forall l, Permutation l (order l)) ->
  forget c h root t = (Ok tt, t) /\ collect c h root order t = (Ok tt, t).
Proof.
  intros c h root order t H O. destruct (held_plain h root H) as [A B]. split; apply destroy_only_plain; [exact A|].
  apply Forall_forall. intros o I. apply (proj1 (Forall_forall _ _) B). apply Permutation_in with (1 := Permutation_sym (O _)). exact I.
Qed.

(** The wrapper's methods, once looked up, form a cycle with it: forgetting the stream does nothing at all. *)
Theorem C100_used_wrapper_stays : forall c x names root t, names <> [] -> forget c (mkHeap x true names) root t = (Ok tt, t).
Proof. intros c x names root t N. unfold forget. rewrite by_count_cycle; auto. Qed.

(** Any public method that a program got from the wrapper, called or not, is enough for that. *)
Definition public (c : callee) : Prop := match c with Direct n | Proxy n => private n = false end.
Lemma got_cached ms l : forall s s', wrun ms l s = Some s' ->
  (forall c, In c (s_got s) -> public c -> s_cached s <> []) -> forall c, In c (s_got s') -> public c -> s_cached s' <> [].
Proof.
  induction l as [|(t, a) l IH]; intros s s' H I; cbn in H; [injection H as <-; exact I|].
  destruct (M_Wrapper.wstep ms t a s) as [s1|] eqn:E; [|discriminate]. apply (IH s1 s' H). clear H IH.
  unfold M_Wrapper.wstep in E. destruct (s_pos s t) as [|n|n|n b]; destruct a as [n'| | |c0| |r]; try discriminate E.
  - destruct (mem n' (s_cached s)) eqn:M; injection E as <-; [|exact I]. cbn. intros c _ _ X. rewrite X in M. discriminate.
  - injection E as <-. cbn. intros c [<-|G]; [discriminate|]. now apply I.
  - destruct (existsb _ _); [|discriminate]. destruct c0; injection E as <-; exact I.
  - injection E as <-. destruct (private n) eqn:Pn; cbn [negb andb].
    + destruct (ms n); cbn; [|exact I]. intros c [<-|G] Pc; [cbn in Pc; congruence|]. now apply (I c).
    + destruct (ms n); cbn; [discriminate|exact I].
  - destruct (s_owner s); [discriminate|]. injection E as <-. exact I.
  - injection E as <-. destruct b; exact I.
Qed.
Theorem C100_one_method_is_enough : forall methods l s m c x root t,
  wrun methods l w_init = Some s -> In m (s_got s) -> public m ->
  forget c (mkHeap x true (s_cached s)) root t = (Ok tt, t).
Proof.
  intros ms l s m c x root t H G P. apply C100_used_wrapper_stays. apply (got_cached ms l w_init s H) with m; auto.
Qed.

(** ** The garbage collector *)
Lemma forgotten_garbage x names root : names <> [] -> forgotten (mkHeap x true names) root ->
  let h := mkHeap x true names in
  snd (by_count h root) = objects h /\ In (stream_of x) (garbage h root (objects h)).
Proof.
  intros N (A & B & C) h. unfold h. rewrite by_count_cycle by auto. cbn [snd]. split; [reflexivity|].
  unfold garbage. apply filter_In. split; [apply (stream_in (mkHeap x true names))|]. apply negb_true_iff.
  destruct (existsb _ _) eqn:E; [exfalso|reflexivity]. apply mem_obj in E. cbn in A.
  (* only inner streams are reachable *)
  set (P := fun o => In o (streams x) /\ o <> stream_of x).
  enough (X : P (stream_of x)) by now destruct X.
  apply (reachable_below (mkHeap x true names) (objects (mkHeap x true names)) P) in E; [exact E| |].
  - intros o p [I No] R. unfold P in *. destruct x; cbn in I, No.
    + destruct I as [<-|[]]; congruence.
    + destruct I as [<-|[<-|[]]]; [contradiction|congruence].
    + destruct I as [<-|[<-|[<-|[]]]]; [contradiction| |congruence]. destruct R as [<-|[]]. cbn. split; [auto|discriminate].
  - intros o I. apply filter_In in I. destruct I as [I R]. destruct (in_objects _ _ I) as [S|(_ & [->|(n & -> & M)])].
    + split; [exact S|]. intros ->. cbn in R. congruence.
    + congruence.
    + rewrite C in R. discriminate.
Qed.

(** If the collector takes the outermost stream first of the streams, the effect is that of close(). *)
Theorem C100_collected_outermost_first : forall c x names root order pre post t r t', names <> [] ->
  let h := mkHeap x true names in
  order (garbage h root (snd (by_count h root))) = pre ++ stream_of x :: post -> (forall o, In o pre -> ~ In o (streams x)) ->
  (forall l, Permutation l (order l)) -> close_of c x t = (r, t') -> collect c h root order t = (silent r, t').
Proof.
  intros c x names root order pre post t r t' N h E Hp O Ec. unfold collect. rewrite E, destroy_plain; [now apply destroy_outer|].
  apply Forall_forall. intros o I. unfold h in E. rewrite by_count_cycle in E by auto. cbn [snd] in E.
  assert (Io : In o (objects (mkHeap x true names))).
  { eapply garbage_in. eapply Permutation_in; [apply Permutation_sym, O|]. rewrite E. apply in_app_iff. left. exact I. }
  destruct (plain_or_stream _ _ Io) as [X|X]; [exact X|]. now apply Hp in I.
Qed.

(** In any order, unless a destructor never returns, the raw stream ends up closed. *)
Lemma destructor_open c o t r t' : destructor c o t = (r, t') ->
  (forall e, r = Err e -> e = EHang \/ e = EFuel) /\ (~ plain o -> f_closed (b_raw (t_b t')) = true).
Proof.
  intros H. destruct o.
  - cbn in H. injection H as <- <-. split; [discriminate|]. intros X. now destruct X.
  - cbn in H. injection H as <- <-. split; [discriminate|]. intros X. now destruct X.
  - destruct (close_of c OutText t) as [r0 t0] eqn:E. pose proof (destructor_of c OutText _ _ _ E) as X; cbn [stream_of] in X; rewrite X in H; injection H as <- <-.
    split; [|intros _; eapply (close_of_closes c OutText); eauto]. intros e. destruct r0 as [|[]]; cbn; intros [= <-]; auto.
  - destruct (close_of c OutBuffered t) as [r0 t0] eqn:E. pose proof (destructor_of c OutBuffered _ _ _ E) as X; cbn [stream_of] in X; rewrite X in H; injection H as <- <-.
    split; [|intros _; eapply (close_of_closes c OutBuffered); eauto]. intros e. destruct r0 as [|[]]; cbn; intros [= <-]; auto.
  - destruct (close_of c OutRaw t) as [r0 t0] eqn:E. pose proof (destructor_of c OutRaw _ _ _ E) as X; cbn [stream_of] in X; rewrite X in H; injection H as <- <-.
    split; [|intros _; eapply (close_of_closes c OutRaw); eauto]. intros e. destruct r0 as [|[]]; cbn; intros [= <-]; auto.
Qed.
Lemma plain_dec o : plain o \/ ~ plain o.
Proof. destruct o; cbn; auto. Qed.
Lemma destroy_closes c l : forall t r t', destroy c l t = (r, t') -> (exists o, In o l /\ ~ plain o) ->
  f_closed (b_raw (t_b t')) = true \/ r = Err EHang \/ r = Err EFuel.
Proof.
  induction l as [|o l IH]; intros t r t' H (p & I & Np); [contradiction|]. cbn in H. unfold bind in H.
  destruct (destructor c o t) as [r1 t1] eqn:E. destruct (destructor_open _ _ _ _ _ E) as [A B].
  destruct r1 as [[]|e].
  - destruct (plain_dec o) as [Po|No].
    + apply (IH t1 r t' H). exists p. destruct I as [<-|I]; [contradiction|auto].
    + rewrite destroy_closed in H by now apply B. injection H as <- <-. left. now apply B.
  - injection H as <- <-. right. destruct (A e eq_refl) as [->| ->]; auto.
Qed.
Theorem C100_collected_is_closed : forall c x names root order t r t', names <> [] -> forgotten (mkHeap x true names) root ->
  (forall l, Permutation l (order l)) -> collect c (mkHeap x true names) root order t = (r, t') ->
  f_closed (b_raw (t_b t')) = true \/ r = Err EHang \/ r = Err EFuel.
Proof.
  intros c x names root order t r t' N F O H. destruct (forgotten_garbage x names root N F) as [B G]. unfold collect in H. rewrite B in H.
  eapply destroy_closes; [exact H|]. exists (stream_of x). split; [eapply Permutation_in; [apply O|exact G]|destruct x; cbn; auto].
Qed.

(** CPython takes the objects in order of creation, the raw stream first: the raw stream is closed, its locks are released, and
    what the buffers hold is never written. *)
Lemma nothing_reachable h l k : reachable h l k [] = [].
Proof. induction k as [|k IH]; [reflexivity|]. cbn. replace (filter _ l) with (@nil obj); [exact IH|]. clear IH. induction l; cbn; auto. Qed.
Lemma garbage_all h l : garbage h nothing_kept l = l.
Proof.
  unfold garbage. replace (filter nothing_kept l) with (@nil obj) by (induction l; auto). rewrite nothing_reachable. cbn.
  induction l as [|o l IH]; [reflexivity|]. cbn. now rewrite IH.
Qed.
Theorem C100_collected_loses_buffers : forall c x names t, names <> [] ->
  let '(r, b) := raw_close_b (t_b t) in
  collect c (mkHeap x true names) nothing_kept (fun l => l) t = (silent r, set_b t b)
  /\ forall u, w_inodes (b_w b) u = w_inodes (b_w (t_b t)) u.
Proof.
  intros c x names t N. destruct (raw_close_b (t_b t)) as [r b] eqn:E. split.
  - unfold collect. rewrite by_count_cycle, garbage_all by auto. cbn [snd].
    assert (exists l, objects (mkHeap x true names) = stream_of OutRaw :: l) as (l & ->) by (destruct x; cbn; eauto).
    apply destroy_outer. cbn. unfold on_b. now rewrite E.
  - intros u. unfold raw_close_b in E. destruct (raw_close (b_raw (t_b t)) (b_w (t_b t))) as [r0 w0] eqn:Ec. injection E as _ <-. cbn.
    now rewrite (kp_inodes _ _ (raw_close_kept _ _ _ _ Ec)).
Qed.

(** Forgetting a stream, then letting the collector run, is closing it: no. *)
Definition forgetting_closes : Prop := forall methods l s c x t r t',
  wrun methods l w_init = Some s -> close_of c x t = (Ok tt, t') ->
  (forget c (mkHeap x true (s_cached s)) nothing_kept ;; collect c (mkHeap x true (s_cached s)) nothing_kept (fun l => l)) t = (Ok tt, r) ->
  forall u, w_inodes (b_w (t_b r)) u = w_inodes (b_w (t_b t')) u.
(** f = rsopen(...); f.write("ab"); del f; gc.collect() *)
Definition one_write : list (nat * wact) := [(0%nat, ALookup "write"); (0%nat, AGetattr); (0%nat, ACall (Direct "write")); (0%nat, AReturn false)].
Definition forgotten_text : tstate := snd (run_wops (conf BWriter NlLf) [WoText [97; 98]] (demo_text BWriter 16 [] [])).
Theorem C100_forgotten_refuted : ~ forgetting_closes.
Proof.
  intros H. destruct (wrun (fun _ => true) one_write w_init) as [s|] eqn:Es; [|discriminate Es].
  assert (Hs : s_cached s = ["write"%string]) by (vm_compute in Es; injection Es as <-; reflexivity).
  destruct (close_of (conf BWriter NlLf) OutText forgotten_text) as [rc tc] eqn:Ec.
  destruct ((forget (conf BWriter NlLf) (mkHeap OutText true ["write"%string]) nothing_kept ;;
             collect (conf BWriter NlLf) (mkHeap OutText true ["write"%string]) nothing_kept (fun l => l)) forgotten_text) as [rd td] eqn:Ed.
  assert (rc = Ok tt) as -> by (change (fst (rc, tc) = Ok tt); rewrite <- Ec; vm_compute; reflexivity).
  assert (rd = Ok tt) as -> by (change (fst (rd, td) = Ok tt); rewrite <- Ed; vm_compute; reflexivity).
  specialize (H (fun _ => true) one_write s (conf BWriter NlLf) OutText forgotten_text td tc Es Ec). rewrite Hs in H. specialize (H Ed (1, 10)).
  assert (A : option_map n_data (w_inodes (b_w (t_b (snd (@Ok unit tt, td)))) (1, 10)) = Some []) by (rewrite <- Ed; vm_compute; reflexivity).
  assert (B : option_map n_data (w_inodes (b_w (t_b (snd (@Ok unit tt, tc)))) (1, 10)) = Some [97; 98]) by (rewrite <- Ec; vm_compute; reflexivity).
  cbn [snd] in A, B. rewrite H in A. congruence.
Qed.

(** The same stream before the collector runs: still open, and its lock still held. *)
Example C100_lock_kept_example :
  let '(f, w) := demo_open "f"%string true true false (demo [] [] [] []) in
  let '(_, w1) := raw_lock_file f PNone PNone PNone 0 SNone w in
  let '(r, t) := forget (conf BRandom NlLf) (mkHeap OutBuffered true ["lock_file"%string]) nothing_kept (t_fresh (fresh f 8 w1)) in
  let '(r', t') := collect (conf BRandom NlLf) (mkHeap OutBuffered true ["lock_file"%string]) nothing_kept (fun l => l) t in
  let '(r2, t2) := forget (conf BRandom NlLf) (mkHeap OutBuffered false []) nothing_kept (t_fresh (fresh f 8 w1)) in
  r = Ok tt /\ w_kern (b_w (t_b t)) <> [] /\ f_closed (b_raw (t_b t)) = false
  /\ r' = Ok tt /\ w_kern (b_w (t_b t')) = [] /\ f_closed (b_raw (t_b t')) = true
  /\ r2 = Ok tt /\ w_kern (b_w (t_b t2)) = [].
Proof. vm_compute. repeat split; auto. discriminate. Qed.

(** ** What arrives in the file *)
(** Binary streams without wrapper, system calls working: forgetting the stream writes everything. *)
Theorem C100_forgotten_data_arrives : forall c f size ops w o i outs b wrapped root t',
  let k := tc_kind c in
  setting k f size w o i -> run_bops k ops (fresh f size w) = (outs, b) -> (k = BRandom -> disciplined true (combine ops outs)) ->
  forgotten (mkHeap OutBuffered wrapped []) root -> forget c (mkHeap OutBuffered wrapped []) root (t_fresh b) = (Ok tt, t') ->
  exists C p, baruns (acc_kind k) (n_data i, o_pos o) ops outs (C, p)
    /\ holds_file (b_w (t_b t')) (o_uid o) C /\ f_closed (b_raw (t_b t')) = true.
Proof.
  intros c f size ops w o i outs b wr root t' k S E D F H.
  destruct (close_of c OutBuffered (t_fresh b)) as [r t1] eqn:Ec. pose proof (close_of_closes _ _ _ _ _ Ec) as Cl.
  destruct (C100_forgotten_is_closed_partial c OutBuffered wr root _ _ _ F Ec) as [X _]. rewrite X in H. injection H as _ ->.
  cbn in Ec. unfold on_b in Ec. replace (t_b (t_fresh b)) with b in Ec by reflexivity. destruct (b_close (tc_kind c) b) as [r1 b1] eqn:Eb. injection Ec as <- <-.
  destruct (C34_close_flushes_first_partial _ _ _ _ _ _ _ _ _ _ _ S E D Eb) as (C & p & w1 & A & _ & _ & _ & _ & Hf).
  exists C, p. auto.
Qed.

(** Text streams that write, whatever the system answers: if close() would have raised nothing, everything is in the file. *)
Theorem C100_forgotten_text_arrives : forall c f size ops w o i outs t1 wrapped root t2, writing c f size w o i ->
  run_wops c ops (text_fresh f size w) = (outs, t1) -> forgotten (mkHeap OutText wrapped []) root ->
  forget c (mkHeap OutText wrapped []) root t1 = (Ok tt, t2) ->
  exists C p e, toruns (tc_codec c) (tc_newline c) (tc_linesep c) (tc_line_buffering c) (o_app o)
      (n_data i, o_pos o, enc_start (tc_codec c) o) ops outs (C, p, e)
    /\ (fst (t_close c t1) = Ok tt -> holds_file (b_w (t_b t2)) (o_uid o) C) /\ f_closed (b_raw (t_b t2)) = true.
Proof.
  intros c f size ops w o i outs t1 wr root t2 Wg E F H. destruct (t_close c t1) as [r t3] eqn:Ec.
  destruct (C100_forgotten_is_closed_partial c OutText wr root t1 r t3 F Ec) as [X _]. rewrite X in H. injection H as _ ->.
  destruct (C71_close_writes _ _ _ _ _ _ _ _ _ _ _ Wg E Ec) as (C & p & e & lost & A & _ & Hf & Hc). exists C, p, e. auto.
Qed.

(** An exception of close() tells the program what was lost; a forgotten stream loses it in silence. *)
Definition forgotten_loses_nothing : Prop := forall c f size w o i s t1 t2, writing c f size w o i -> n_data i = [] ->
  t_write c s (text_fresh f size w) = (Ok (len s), t1) -> forget c (mkHeap OutText false []) nothing_kept t1 = (Ok tt, t2) ->
  exists C, holds_file (b_w (t_b t2)) (o_uid o) C /\ (s <> [] -> C <> []).
Theorem C100_silent_loss_refuted : ~ forgotten_loses_nothing.
Proof.
  intros H. destruct full_disk_writing as (o & i & Wg & D & U).
  destruct (t_write (conf BWriter NlLf) [97; 98] (text_fresh (fst full_disk) 8 (snd full_disk))) as [r t1] eqn:E1.
  destruct (forget (conf BWriter NlLf) (mkHeap OutText false []) nothing_kept t1) as [r2 t2] eqn:E2.
  assert (r = Ok 2 /\ r2 = Ok tt /\ option_map n_data (w_inodes (b_w (t_b t2)) (1, 10)) = Some []) as (-> & -> & X).
  { assert (r = fst (t_write (conf BWriter NlLf) [97; 98] (text_fresh (fst full_disk) 8 (snd full_disk)))) as -> by now rewrite E1.
    assert (r2 = fst (forget (conf BWriter NlLf) (mkHeap OutText false []) nothing_kept t1)) as -> by now rewrite E2.
    assert (t2 = snd (forget (conf BWriter NlLf) (mkHeap OutText false []) nothing_kept t1)) as -> by now rewrite E2.
    assert (t1 = snd (t_write (conf BWriter NlLf) [97; 98] (text_fresh (fst full_disk) 8 (snd full_disk)))) as -> by now rewrite E1.
    vm_compute. auto. }
  destruct (H (conf BWriter NlLf) _ _ _ _ _ [97; 98] _ _ Wg D E1 E2) as (C & (j & Hj & <-) & Hl). rewrite U in Hj. rewrite Hj in X. cbn in X. injection X as X.
  apply Hl; [discriminate|exact X].
Qed.

Print Assumptions C100_forgotten_is_closed_partial.
Print Assumptions C100_referenced_is_kept.
Print Assumptions C100_used_wrapper_stays.
Print Assumptions C100_one_method_is_enough.
Print Assumptions C100_collected_outermost_first.
Print Assumptions C100_collected_is_closed.
Print Assumptions C100_collected_loses_buffers.
Print Assumptions C100_forgotten_refuted.
Print Assumptions C100_forgotten_data_arrives.
Print Assumptions C100_forgotten_text_arrives.
Print Assumptions C100_silent_loss_refuted.
