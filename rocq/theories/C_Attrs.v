(** Final theorems about the attributes of the streams (C97). *)
From Coq Require Import String List Bool Arith.
From Verif Require Import S_Attrs M_Attrs.
Import ListNotations.
Open Scope string_scope.

Lemma in_all {A} (l : list A) (P : A -> bool) x : forallb P l = true -> In x l -> P x = true.
Proof. intros H. now apply (proj1 (forallb_forall P l) H). Qed.

(** * The order in which classes are searched *)
Theorem C97_random_order : order "RSBufferedRandom" =
  ["RSBufferedRandom"; "BufferedRandom"; "RSBufferedWriter"; "RSBufferedReader"; "_buffer_forwarder_mixin"; "BufferedWriter"; "BufferedReader";
   "_BufferedIOMixin"; "BufferedIOBase"; "IOBase"; "object"].
Proof. vm_compute. reflexivity. Qed.
(** Every class has an order, which begins with it, has no repetition, keeps the order of its bases, and has each class before
    the bases of that class. *)
Fixpoint before (a b : string) (l : list string) : bool :=
  match l with [] => false | x :: r => if String.eqb x a then mem b r else before a b r end.
Fixpoint ordered (l order : list string) : bool :=
  match l with a :: (b :: _) as r => before a b order && ordered r order | _ => true end.
Fixpoint distinct (l : list string) : bool := match l with [] => true | a :: r => negb (mem a r) && distinct r end.
Theorem C97_orders : forall c, In c classes ->
  exists l, order (c_name c) = c_name c :: l /\ distinct (order (c_name c)) = true /\ ordered (c_bases c) (order (c_name c)) = true
    /\ forall d, In d classes -> In (c_name d) (order (c_name c)) -> forall e, In e (c_bases d) -> before (c_name d) e (order (c_name c)) = true.
Proof.
  intros c Hc. exists (tl (order (c_name c))).
  assert (G : forallb (fun c => (match order (c_name c) with x :: _ => String.eqb x (c_name c) | [] => false end) && distinct (order (c_name c))
      && ordered (c_bases c) (order (c_name c))
      && forallb (fun d => negb (mem (c_name d) (order (c_name c))) || forallb (fun e => before (c_name d) e (order (c_name c))) (c_bases d)) classes) classes = true)
    by (vm_compute; reflexivity).
  apply (fun g => in_all _ _ c g Hc) in G. cbv beta in G. apply andb_prop in G as [G G4]. apply andb_prop in G as [G G3]. apply andb_prop in G as [G1 G2].
  split; [destruct (order (c_name c)) as [|x l]; [discriminate|]; apply String.eqb_eq in G1; now subst|].
  split; [exact G2|]. split; [exact G3|]. intros d Hd Hin e He.
  apply (fun g => in_all _ _ d g Hd) in G4. cbv beta in G4. apply orb_prop in G4 as [G4|G4]; [|now apply (in_all _ _ e G4)].
  assert (M : mem (c_name d) (order (c_name c)) = true) by (apply existsb_exists; exists (c_name d); split; [exact Hin|apply String.eqb_refl]).
  rewrite M in G4. discriminate.
Qed.

(** * Every stream has the documented attributes *)
Theorem C97_interface : forall s a, In s streams -> In a documented -> exists n x, lookup a s = Some (n, x).
Proof.
  intros s a Hs Ha.
  assert (G : forallb (fun s => forallb (fun a => match lookup a s with Some _ => true | None => false end) documented) streams = true)
    by (vm_compute; reflexivity).
  apply (fun g => in_all _ _ s g Hs) in G. apply (fun g => in_all _ _ a g Ha) in G. cbv beta in G.
  destruct (lookup a s) as [[n x]|]; [eauto|discriminate].
Qed.
(** ... and takes the documented arguments, apart from those of truncate(). *)
Theorem C97_arguments_partial : forall s m args, In s streams -> In (m, args) documented_methods -> m <> "truncate" -> call_ok m args s = true.
Proof.
  intros s m args Hs Hm Nt.
  assert (G : forallb (fun s => forallb (fun x => String.eqb (fst x) "truncate" || call_ok (fst x) (snd x) s) documented_methods) streams = true)
    by (vm_compute; reflexivity).
  apply (fun g => in_all _ _ s g Hs) in G. apply (fun g => in_all _ _ (m, args) g Hm) in G. cbn [fst snd] in G.
  apply orb_prop in G as [G|G]; [|exact G]. now apply String.eqb_eq in G.
Qed.
(** truncate(size=..., zero_fill=...) is refused by every stream that has a buffer: TypeError. *)
Definition documented_arguments_taken : Prop := forall s m args, In s streams -> In (m, args) documented_methods -> call_ok m args s = true.
Theorem C97_arguments_refuted : ~ documented_arguments_taken.
Proof.
  intros H. specialize (H [buf_obj "RSBufferedWriter"; raw_obj] "truncate" ["size"; "zero_fill"]).
  assert (X : call_ok "truncate" ["size"; "zero_fill"] [buf_obj "RSBufferedWriter"; raw_obj] = true) by (apply H; cbn; auto).
  vm_compute in X. discriminate.
Qed.
Theorem C97_zero_fill : forall s, In s streams -> call_ok "truncate" ["size"; "zero_fill"] s = true <-> s = [raw_obj] \/ s = [wrapper_obj; raw_obj].
Proof.
  intros s Hs. split.
  - intros H. cbn in Hs. decompose [or] Hs; subst; try contradiction; auto; vm_compute in H; discriminate.
  - intros [->| ->]; vm_compute; reflexivity.
Qed.

(** * Which layer answers *)

(** Without the thread-safe wrapper, what depends on the buffers is answered by the stream that is asked, if any stream of the
    chain can... apart from readall(), and for text streams from the methods for bytes. *)
Definition bytes_only : list string := ["readall"; "read1"; "readinto1"; "peek"].
Theorem C97_buffers_heeded_partial : forall s a n x, In s unwrapped -> In a buffer_sensitive -> lookup a s = Some (n, x) ->
  n = 0 \/ In a bytes_only.
Proof.
  intros s a n x Hs Ha H.
  assert (G : forallb (fun s => forallb (fun a => match lookup a s with Some (S _, _) => mem a bytes_only | _ => true end) buffer_sensitive) unwrapped = true)
    by (vm_compute; reflexivity).
  apply (fun g => in_all _ _ s g Hs) in G. apply (fun g => in_all _ _ a g Ha) in G. cbv beta in G. rewrite H in G. destruct n; [now left|right].
  apply existsb_exists in G as (y & Hy & E). apply String.eqb_eq in E. now subst.
Qed.
Definition buffers_heeded : Prop := forall s a n x, In s unwrapped -> In a buffer_sensitive -> lookup a s = Some (n, x) -> n = 0.
Theorem C97_buffers_heeded_refuted : ~ buffers_heeded.
Proof.
  intros H. specialize (H [buf_obj "RSBufferedReader"; raw_obj] "readall" 1 (InClass "RSFileIOAbstract" [])).
  assert (1 = 0) by (apply H; [cbn; auto|cbn; auto 20|vm_compute; reflexivity]). discriminate.
Qed.
(** The only attributes that a buffered stream takes from the raw stream; what a text stream takes from the layers below. *)
Definition all_names : list string := flat_map (fun c => map fst (c_own c)) classes ++ flat_map ob_dict (concat streams).
Theorem C97_forwarded_buffered : forall c a n x, In c ["RSBufferedReader"; "RSBufferedWriter"; "RSBufferedRandom"] -> In a all_names ->
  lookup a [buf_obj c; raw_obj] = Some (n, x) -> n <> 0 ->
  In a ["readall"; "handle"; "origin"; "closefd"; "uid"; "enforced_locking_timeout_value"; "default_spinlock_delay"].
Proof.
  intros c a n x Hc Ha H Hn. set (L := ["readall"; _; _; _; _; _; _]).
  assert (G : forallb (fun c => forallb (fun a => match lookup a [buf_obj c; raw_obj] with Some (S _, _) => mem a L | _ => true end) all_names)
     ["RSBufferedReader"; "RSBufferedWriter"; "RSBufferedRandom"] = true) by (vm_compute; reflexivity).
  apply (fun g => in_all _ _ c g Hc) in G. apply (fun g => in_all _ _ a g Ha) in G. cbv beta in G. rewrite H in G. destruct n; [congruence|].
  apply existsb_exists in G as (y & Hy & E). apply String.eqb_eq in E. now subst.
Qed.
Theorem C97_forwarded_text : forall c a n x, In c ["RSBufferedReader"; "RSBufferedWriter"; "RSBufferedRandom"] -> In a all_names ->
  lookup a [text_obj; buf_obj c; raw_obj] = Some (n, x) -> n <> 0 ->
  In a ["read1"; "readinto1"; "peek"; "readall"; "raw"; "buffer_size"; "handle"; "origin"; "closefd"; "uid"; "enforced_locking_timeout_value"; "default_spinlock_delay"].
Proof.
  intros c a n x Hc Ha H Hn. set (L := ["read1"; _; _; _; _; _; _; _; _; _; _; _]).
  assert (G : forallb (fun c => forallb (fun a => match lookup a [text_obj; buf_obj c; raw_obj] with Some (S _, _) => mem a L | _ => true end) all_names)
     ["RSBufferedReader"; "RSBufferedWriter"; "RSBufferedRandom"] = true) by (vm_compute; reflexivity).
  apply (fun g => in_all _ _ c g Hc) in G. apply (fun g => in_all _ _ a g Ha) in G. cbv beta in G. rewrite H in G. destruct n; [congruence|].
  apply existsb_exists in G as (y & Hy & E). apply String.eqb_eq in E. now subst.
Qed.

(** The methods that M_Buffered describes for a stream that reads and writes are those that are called. *)
Theorem C97_random_methods : forall a c, In (a, c)
  [("read", "BufferedRandom"); ("read1", "BufferedRandom"); ("peek", "BufferedRandom"); ("readinto", "BufferedRandom"); ("write", "BufferedRandom");
   ("seek", "BufferedRandom"); ("tell", "BufferedRandom"); ("truncate", "BufferedRandom"); ("flush", "BufferedWriter"); ("close", "BufferedWriter");
   ("readable", "RSBufferedReader"); ("writable", "RSBufferedWriter"); ("readline", "IOBase"); ("readlines", "IOBase"); ("writelines", "IOBase");
   ("size", "_buffer_forwarder_mixin"); ("sync", "_buffer_forwarder_mixin"); ("lock_file", "_buffer_forwarder_mixin");
   ("unlock_file", "_buffer_forwarder_mixin"); ("closed", "_BufferedIOMixin")] ->
  exists ps, lookup a [buf_obj "RSBufferedRandom"; raw_obj] = Some (0, InClass c ps).
Proof.
  intros a c H. cbn [In] in H. decompose [or] H; try contradiction; match goal with E : (_, _) = (_, _) |- _ => injection E as <- <- end; eexists; vm_compute; reflexivity.
Qed.
Theorem C97_one_way_methods : forall k a c, In (k, a, c)
  [("RSBufferedReader", "read", "BufferedReader"); ("RSBufferedReader", "read1", "BufferedReader"); ("RSBufferedReader", "peek", "BufferedReader");
   ("RSBufferedReader", "readinto", "BufferedIOBase"); ("RSBufferedReader", "write", "BufferedIOBase"); ("RSBufferedReader", "truncate", "_BufferedIOMixin");
   ("RSBufferedReader", "seek", "BufferedReader"); ("RSBufferedReader", "tell", "BufferedReader"); ("RSBufferedReader", "flush", "_BufferedIOMixin");
   ("RSBufferedReader", "close", "_BufferedIOMixin"); ("RSBufferedReader", "writable", "IOBase"); ("RSBufferedReader", "lock_file", "_buffer_forwarder_mixin");
   ("RSBufferedWriter", "write", "BufferedWriter"); ("RSBufferedWriter", "flush", "BufferedWriter"); ("RSBufferedWriter", "truncate", "BufferedWriter");
   ("RSBufferedWriter", "seek", "BufferedWriter"); ("RSBufferedWriter", "tell", "BufferedWriter"); ("RSBufferedWriter", "close", "BufferedWriter");
   ("RSBufferedWriter", "read", "BufferedIOBase"); ("RSBufferedWriter", "readable", "IOBase"); ("RSBufferedWriter", "lock_file", "_buffer_forwarder_mixin")] ->
  exists ps, lookup a [buf_obj k; raw_obj] = Some (0, InClass c ps).
Proof.
  intros k a c H. cbn [In] in H. decompose [or] H; try contradiction; match goal with E : (_, _, _) = (_, _, _) |- _ => injection E as <- <- <- end; eexists; vm_compute; reflexivity.
Qed.

(** * Iteration and the with statement *)

(** All work on the streams themselves; the thread-safe wrapper, which rsopen() puts by default, has all but __next__... *)
Theorem C97_special_partial : forall s a, In s streams -> In a special_methods -> special a s = None <-> hd_error s = Some wrapper_obj /\ a = "__next__".
Proof.
  intros s a Hs Ha.
  assert (G : forallb (fun s => forallb (fun a => Bool.eqb (match special a s with None => true | Some _ => false end)
      (String.eqb a "__next__" && match s with o :: _ => String.eqb (ob_class o) "RSThreadSafeWrapper" | [] => false end)) special_methods) streams = true)
    by (vm_compute; reflexivity).
  apply (fun g => in_all _ _ s g Hs) in G. apply (fun g => in_all _ _ a g Ha) in G. cbv beta in G. apply Bool.eqb_prop in G.
  assert (W : (match s with o :: _ => String.eqb (ob_class o) "RSThreadSafeWrapper" | [] => false end) = true <-> hd_error s = Some wrapper_obj).
  { cbn in Hs. decompose [or] Hs; subst; try contradiction; cbn; split; intros E; try discriminate E; auto. }
  destruct (special a s) as [c|]; split.
  - discriminate.
  - intros [E ->]. apply (proj2 W) in E. rewrite E in G. discriminate.
  - intros _. symmetry in G. apply andb_prop in G as [G1 G2]. apply String.eqb_eq in G1. split; [now apply (proj1 W)|exact G1].
  - reflexivity.
Qed.
(** ... so that next(), which takes any stream of the io module, does not take what rsopen() returns. *)
Definition streams_are_iterators : Prop := forall s a, In s streams -> In a special_methods -> special a s <> None.
Theorem C97_special_refuted : ~ streams_are_iterators.
Proof.
  intros H. apply (H [wrapper_obj; raw_obj] "__next__"); [cbn; auto 20|cbn; auto|vm_compute; reflexivity].
Qed.

Example C97_example :
  lookup "lock_file" [wrapper_obj; text_obj; buf_obj "RSBufferedRandom"; raw_obj] = Some (1, InClass "_text_forwarder_mixin" ["*"])
  /\ lookup "handle" [text_obj; buf_obj "RSBufferedRandom"; raw_obj] = Some (2, InClass "RSFileIOAbstract" [])
  /\ lookup "mode" [text_obj; buf_obj "RSBufferedRandom"; raw_obj] = Some (0, InObject)
  /\ lookup "nothing" [text_obj; buf_obj "RSBufferedRandom"; raw_obj] = None
  /\ length streams = 14.
Proof. vm_compute. auto. Qed.

Print Assumptions C97_random_order.
Print Assumptions C97_orders.
Print Assumptions C97_interface.
Print Assumptions C97_arguments_partial.
Print Assumptions C97_arguments_refuted.
Print Assumptions C97_zero_fill.
Print Assumptions C97_buffers_heeded_partial.
Print Assumptions C97_buffers_heeded_refuted.
Print Assumptions C97_forwarded_buffered.
Print Assumptions C97_forwarded_text.
Print Assumptions C97_random_methods.
Print Assumptions C97_one_way_methods.
Print Assumptions C97_special_partial.
Print Assumptions C97_special_refuted.
