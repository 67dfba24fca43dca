(** Final theorems about opening and closing on windows: C56, C57, C58. *)
From Coq Require Import ZArith Ascii String List Bool Lia.
From Verif Require Import M_Base M_Modes M_World M_WinHandles S_WinHandles.
Import ListNotations.
Open Scope Z_scope.

(** * The C descriptor table *)

Lemma first_free_spec l d : first_free l = Some d -> nth_error l d = Some None.
Proof.
  revert d. induction l as [|[x|] l IH]; cbn; intros d E; [discriminate| |].
  - destruct (first_free l) as [k|]; [|discriminate]. injection E as <-. cbn. auto.
  - injection E as <-. reflexivity.
Qed.
Lemma upd_same {A} (l : list A) d x : nth_error l d <> None -> nth_error (nth_update l d x) d = Some x.
Proof. revert d. induction l as [|y l IH]; intros [|d]; cbn; intros E; try congruence; auto. Qed.
Lemma upd_back {A} (l : list A) d x y : nth_error l d = Some y -> nth_update (nth_update l d x) d y = l.
Proof. revert d. induction l as [|a l IH]; intros [|d]; cbn; intros E; try congruence. now rewrite IH. Qed.
Lemma upd_other {A} (l : list A) d e x : d <> e -> nth_error (nth_update l d x) e = nth_error l e.
Proof. revert d e. induction l as [|a l IH]; intros [|d] [|e] N; cbn; auto; congruence. Qed.
Lemma upd_len {A} (l : list A) d x : length (nth_update l d x) = length l.
Proof. revert d. induction l as [|a l IH]; intros [|d]; cbn; auto. Qed.
Lemma used_upd l d h : nth_error l d = Some None -> used (nth_update l d (Some h)) = 1 + used l.
Proof.
  revert d. induction l as [|a l IH]; intros [|d]; cbn [nth_update nth_error used]; intros E; try discriminate.
  - injection E as ->. reflexivity.
  - specialize (IH d E). destruct a; lia.
Qed.
Lemma used_bounds l : 0 <= used l <= Z.of_nat (length l).
Proof. induction l as [|[x|] l IH]; cbn [used length]; lia. Qed.
Lemma used_full l : first_free l = None <-> used l = Z.of_nat (length l).
Proof.
  induction l as [|[x|] l IH]; cbn [used length first_free].
  - split; auto.
  - destruct (first_free l); cbn [option_map]; split; intros E; try discriminate.
    + assert (used l = Z.of_nat (length l)) as X by lia. apply IH in X. discriminate.
    + assert (used l = Z.of_nat (length l)) as X by (apply IH; reflexivity). lia.
    + reflexivity.
  - split; [discriminate|]. pose proof (used_bounds l). lia.
Qed.
Lemma crt_at s d : 0 <= d -> crt_handle s d = match nth_error (ws_crt s) (Z.to_nat d) with Some x => x | None => None end.
Proof.
  intros Hd. unfold crt_handle. destruct (d <? 0) eqn:E; [lia|]. generalize (Z.to_nat d). clear. induction (ws_crt s) as [|a l IH]; intros [|n]; cbn; auto.
Qed.

(** * Opening by path *)

Lemma peqb_spec a b : peqb a b = true <-> a = b.
Proof. unfold peqb. destruct (list_eq_dec ascii_dec a b); split; auto; discriminate. Qed.
Lemma upd_peqb_other {V} (m : list ascii -> V) p q v : q <> p -> upd peqb m p v q = m q.
Proof. intros N. unfold upd. destruct (peqb p q) eqn:E; [|reflexivity]. apply peqb_spec in E. congruence. Qed.
Lemma upd_peqb_same {V} (m : list ascii -> V) p v : upd peqb m p v p = v.
Proof. unfold upd. destruct (peqb p p) eqn:E; [reflexivity|]. exfalso. assert (peqb p p = true) by now apply peqb_spec. congruence. Qed.
Lemma upd_z_other {V} (m : Z -> V) p q v : q <> p -> upd Z.eqb m p v q = m q.
Proof. intros N. unfold upd. destruct (p =? q) eqn:E; [|reflexivity]. apply Z.eqb_eq in E. congruence. Qed.
Lemma upd_z_same {V} (m : Z -> V) p v : upd Z.eqb m p v p = v.
Proof. unfold upd. now rewrite Z.eqb_refl. Qed.

(** The file system after a call for [p]: the same, or with a new empty file there. *)
Record fs_same (s s1 : wsys) : Prop := mkFsSame {
  fss_names : ws_names s1 = ws_names s; fss_files : ws_files s1 = ws_files s }.
Record fs_created (p : list ascii) (ro : bool) (s s1 : wsys) (id : Z) : Prop := mkFsCreated {
  fsc_none : ws_names s p = None;
  fsc_fresh : ws_files s id = None;
  fsc_name : ws_names s1 p = Some id;
  fsc_names : forall q, q <> p -> ws_names s1 q = ws_names s q;
  fsc_file : ws_files s1 id = Some ([], ro);
  fsc_files : forall i, i <> id -> ws_files s1 i = ws_files s i }.

Lemma new_handle_cases o s r s1 : new_handle o s = (r, s1) ->
  (exists h, r = Ok h /\ 0 < h /\ ws_handles s h = None /\ s1 = ws_set_newh (ws_set_handles s (upd Z.eqb (ws_handles s) h (Some o))) (tl (ws_newh s)))
  \/ (r = Err (EOS EMFILE) /\ s1 = s).
Proof.
  unfold new_handle. destruct (ws_newh s) as [|h l] eqn:E; [intros [= <- <-]; auto|].
  destruct (ws_handles s h) eqn:Eh; [intros [= <- <-]; auto|]. destruct (h <=? 0) eqn:Ez; intros [= <- <-]; [auto|].
  left. exists h. cbn. repeat split; auto. lia.
Qed.

Inductive created (p : list ascii) (rd wr : bool) (disp : disposition) (inh sync ro : bool) (s : wsys) : res Z -> wsys -> Prop :=
| Cr_err e s1 : fs_same s s1 -> ws_handles s1 = ws_handles s -> ws_crt s1 = ws_crt s ->
    created p rd wr disp inh sync ro s (Err e) s1
| Cr_old h id s1 : fs_same s s1 -> ws_names s p = Some id -> disp <> CreateNew -> 0 < h -> ws_handles s h = None ->
    ws_handles s1 = upd Z.eqb (ws_handles s) h (Some (mkHobj (WFile id) rd wr sync inh)) -> ws_crt s1 = ws_crt s ->
    created p rd wr disp inh sync ro s (Ok h) s1
| Cr_new h id s1 : fs_created p ro s s1 id -> disp <> OpenExisting -> 0 < h -> ws_handles s h = None ->
    ws_handles s1 = upd Z.eqb (ws_handles s) h (Some (mkHobj (WFile id) rd wr sync inh)) -> ws_crt s1 = ws_crt s ->
    created p rd wr disp inh sync ro s (Ok h) s1.

Lemma create_file_cases p rd wr disp inh sync ro s r s1 :
  create_file p rd wr disp inh sync ro s = (r, s1) -> created p rd wr disp inh sync ro s r s1.
Proof.
  unfold create_file, bind, ws_next.
  assert (X : exists e s0, (match ws_io s with [] => (Ok IoFull, s) | e :: r0 => (Ok e, ws_set_io s r0) end) = (@Ok ioev e, s0)
     /\ ws_names s0 = ws_names s /\ ws_files s0 = ws_files s /\ ws_handles s0 = ws_handles s /\ ws_crt s0 = ws_crt s)
    by (destruct (ws_io s); repeat esplit).
  destruct X as (e & s0 & -> & N0 & F0 & H0 & C0).
  assert (K : forall x, (r, s1) = (Err x, s0) -> created p rd wr disp inh sync ro s r s1).
  { intros x [= -> ->]. constructor; auto. split; auto. }
  cbv beta iota. match goal with |- (match e with IoFull => ?body | IoShort _ => _ | IoErr _ => _ end) s0 = _ -> _ => set (bd := body) end.
  assert (B : bd s0 = (r, s1) -> created p rd wr disp inh sync ro s r s1); [|destruct e; auto; intros E; eapply K; symmetry; exact E].
  subst bd. cbv beta. rewrite N0, F0. destruct (ws_names s p) as [id|] eqn:Ep.
  - assert (D : (match ws_files s id with
             | Some (_, readonly) => if readonly && wr then (Err (EOS EACCES), s0) else new_handle (mkHobj (WFile id) rd wr sync inh) s0
             | None => (Err (EOS EACCES), s0) end) = (r, s1) -> disp <> CreateNew -> created p rd wr disp inh sync ro s r s1).
    { destruct (ws_files s id) as [[c readonly]|]; [|intros E _; eapply K; symmetry; exact E].
      destruct (readonly && wr); [intros E _; eapply K; symmetry; exact E|]. intros E Hd.
      apply new_handle_cases in E. destruct E as [(h & -> & Hh & Hf & ->)|[-> ->]]; [|eapply K; reflexivity].
      apply Cr_old with id; cbn; try congruence. split; auto. }
    destruct disp; [intros E; eapply K; symmetry; exact E| |]; intros E; apply D; auto; discriminate.
  - assert (D : (match ws_newid s0 with
                 | [] => (Err (EOS ENOSPC), s0)
                 | id :: r0 =>
                     match ws_files s id with
                     | Some _ => (Err (EOS ENOSPC), s0)
                     | None =>
                         match new_handle (mkHobj (WFile id) rd wr sync inh) s0 with
                         | (Ok h, s2) =>
                             (Ok h, ws_set_newid (ws_set_files (ws_set_names s2 (upd peqb (ws_names s2) p (Some id)))
                                                               (upd Z.eqb (ws_files s2) id (Some ([], ro)))) r0)
                         | (Err x, s2) => (Err x, s2)
                         end
                     end
                 end) = (r, s1) -> disp <> OpenExisting -> created p rd wr disp inh sync ro s r s1).
    { destruct (ws_newid s0) as [|id r0]; [intros E _; eapply K; symmetry; exact E|].
      destruct (ws_files s id) eqn:Ef; [intros E _; eapply K; symmetry; exact E|]. intros E Hd.
      destruct (new_handle _ s0) as [r2 s2] eqn:En. apply new_handle_cases in En.
      destruct En as [(h & -> & Hh & Hf & ->)|[-> ->]]; [|eapply K; symmetry; exact E]. injection E as <- <-.
      apply Cr_new with id; cbn; try congruence. constructor; cbn; auto.
      - apply upd_peqb_same.
      - intros q Hq. rewrite upd_peqb_other; congruence.
      - apply upd_z_same.
      - intros i Hi. rewrite upd_z_other; congruence. }
    destruct disp; [|intros E; eapply K; symmetry; exact E|]; intros E; apply D; auto; discriminate.
Qed.

(** State of a stream opened by path. [C]: C descriptors that belong to others. *)
Record held (hs : Z -> option hobj) (C : list (option Z)) (z : wst) (s : wsys) (h : Z) (o : hobj) : Prop := mkHeld {
  hd_closed : z_closed z = false; hd_closefd : z_closefd z = true; hd_handle : z_handle z = Some h; hd_pos : 0 < h;
  hd_free : hs h = None; hd_handles : ws_handles s = upd Z.eqb hs h (Some o);
  hd_crt : (z_fileno z = None /\ ws_crt s = C) \/
           (exists d, z_fileno z = Some (Z.of_nat d) /\ nth_error C d = Some None /\ ws_crt s = nth_update C d (Some h)) }.

(** The C descriptor made for the test of blocking modes. *)
Definition left_over (blk : bool) (rk : raw_kwargs) (h : Z) (l C : list (option Z)) : Prop :=
  if blk && win_writes rk then exists d, nth_error l d = Some None /\ C = nth_update l d (Some h) else C = l.

Lemma win_checks rk p : init_checks rk = Ok tt -> win_by_path rk p -> rk_closefd rk = true.
Proof.
  intros E (A & B & C). unfold init_checks in E. rewrite A, B, C in E. cbn [is_some b2n orb negb andb] in E. rewrite andb_true_r in E.
  destruct (negb (b2n (path_truthy (NPath p)) + 0 + 0 =? 1)%nat); [discriminate|].
  destruct (negb (rk_read rk) && negb (rk_write rk || rk_append rk)); [discriminate|].
  destruct (rk_must_create rk && rk_must_not_create rk); [discriminate|]. destruct (rk_closefd rk); [reflexivity|discriminate].
Qed.
Lemma seek_end_keeps s r s1 : win_seek_end s = (r, s1) -> fs_same s s1 /\ ws_handles s1 = ws_handles s /\ ws_crt s1 = ws_crt s.
Proof.
  unfold win_seek_end, bind, ws_next.
  destruct (ws_io s) as [|[|n|n] l]; [| | |destruct (n =? ESPIPE)]; intros [= <- <-]; (split; [split|]; auto).
Qed.

(** Every outcome of opening by path. *)
Inductive opened_path (blk : bool) (rk : raw_kwargs) (p : list ascii) (ro : bool) (s : wsys) : res unit -> wst -> wsys -> Prop :=
| Op_refused e z s1 : z_handle z = None -> z_fileno z = None -> z_closed z = false -> fs_same s s1 -> ws_handles s1 = ws_handles s -> ws_crt s1 = ws_crt s ->
    opened_path blk rk p ro s (Err e) z s1
| Op_made r z s1 sc s2 h id C : init_checks rk = Ok tt ->
    created p (rk_read rk) (win_writes rk) (win_disposition rk) (rk_inheritable rk) (rk_synchronized rk) ro s (Ok h) sc ->
    ws_handles sc = upd Z.eqb (ws_handles s) h (Some (mkHobj (WFile id) (rk_read rk) (win_writes rk) (rk_synchronized rk) (rk_inheritable rk))) ->
    fs_same sc s1 -> held (ws_handles s) C z s1 h (mkHobj (WFile id) (rk_read rk) (win_writes rk) (rk_synchronized rk) (rk_inheritable rk)) ->
    z_fileno z = None ->
    (C = ws_crt s \/ exists d, nth_error (ws_crt s) d = Some None /\ C = nth_update (ws_crt s) d (Some h)) ->
    (r = Ok tt -> left_over blk rk h (ws_crt s) C) -> (blk && win_writes rk = false -> C = ws_crt s) ->
    s2 = s1 -> opened_path blk rk p ro s r z s2.

Lemma win_init_cases blk rk p ro s r z s1 : win_by_path rk p -> win_init blk rk ro s = (r, z, s1) -> opened_path blk rk p ro s r z s1.
Proof.
  intros Hp. unfold win_init. destruct (init_checks rk) as [[]|e] eqn:Ek.
  2:{ intros [= <- <- <-]. constructor; auto. split; auto. }
  pose proof (win_checks _ _ Ek Hp) as Cf. destruct Hp as (A & B & D). unfold win_obtain. rewrite A, B, D.
  fold (win_writes rk). cbv zeta.
  destruct (create_file p (rk_read rk) (win_writes rk) (win_disposition rk) (rk_inheritable rk) (rk_synchronized rk) ro s) as [r1 sc] eqn:Ec.
  apply create_file_cases in Ec. destruct r1 as [h|e].
  2:{ intros [= <- <- <-]. inversion Ec; subst. constructor; auto. }
  assert (Y : exists id, 0 < h /\ ws_handles s h = None /\ ws_crt sc = ws_crt s
     /\ ws_handles sc = upd Z.eqb (ws_handles s) h (Some (mkHobj (WFile id) (rk_read rk) (win_writes rk) (rk_synchronized rk) (rk_inheritable rk)))).
  { inversion Ec; subst; exists id; auto. }
  destruct Y as (id & Hh & Hf & Cs & Hs). unfold win_pipe_hack, z_set_handle. cbn [z_writable z_handle z_fileno z_closefd z_readable z_append z_seekable z_closed z_hack].
  assert (Fin : forall z2 s2 C, z_closed z2 = false -> z_closefd z2 = true -> z_handle z2 = Some h -> z_fileno z2 = None ->
     fs_same sc s2 -> ws_handles s2 = ws_handles sc -> ws_crt s2 = C ->
     (C = ws_crt s \/ exists d, nth_error (ws_crt s) d = Some None /\ C = nth_update (ws_crt s) d (Some h)) ->
     left_over blk rk h (ws_crt s) C -> (blk && win_writes rk = false -> C = ws_crt s) ->
     (let '(r0, s3) := match z_fileno z2 with Some d => crt_is_regular d s2 | None => (Ok true, s2) end in
      match r0 with
      | Err e => (Err e, z2, s3)
      | Ok seekable => let z3 := z_set_seekable z2 seekable in
          if rk_append rk then let '(r4, s4) := win_seek_end s3 in (r4, z3, s4) else (Ok tt, z3, s3)
      end) = (r, z, s1) -> opened_path blk rk p ro s r z s1).
  { intros z2 s2 C Z1 Z2 Z3 Z4 F1 H2 C2 Q1 Q2 Q3. rewrite Z4. cbv beta iota zeta.
    assert (W : forall r4 s4, fs_same s2 s4 -> ws_handles s4 = ws_handles s2 -> ws_crt s4 = ws_crt s2 -> opened_path blk rk p ro s r4 (z_set_seekable z2 true) s4).
    { intros r4 s4 [G1 G2] G3 G4. apply Op_made with (s1 := s4) (sc := sc) (h := h) (id := id) (C := C); auto.
      - destruct F1. split; congruence.
      - constructor; cbn; auto; try congruence. left. split; congruence. }
    destruct (rk_append rk).
    - destruct (win_seek_end s2) as [r4 s4] eqn:E4. intros [= <- <- <-]. apply seek_end_keeps in E4. destruct E4 as (G1 & G2 & G3). auto.
    - intros [= <- <- <-]. apply W; auto. split; auto. }
  destruct (win_writes rk && blk) eqn:Ew.
  - assert (blk && win_writes rk = true) as Ew' by (rewrite andb_comm; auto).
    unfold open_osfhandle. destruct (first_free (ws_crt sc)) as [d|] eqn:Efr.
    + pose proof (first_free_spec _ _ Efr) as Hd. rewrite Cs in Hd.
      unfold get_blocking. rewrite crt_at by lia. cbn [ws_crt ws_handles ws_set_crt]. rewrite Nat2Z.id, upd_same by (rewrite Cs; congruence).
      rewrite Hs, upd_z_same. intros E.
      eapply (Fin (mkWst None (Some h) (rk_closefd rk) (rk_read rk) (win_writes rk) (rk_append rk) false false false) _ (nth_update (ws_crt s) d (Some h))); [..|exact E]; auto.
      * split; auto.
      * cbn. now rewrite Cs.
      * right. eauto.
      * unfold left_over. rewrite Ew'. eauto.
      * congruence.
    + intros [= <- <- <-].
      apply Op_made with (s1 := sc) (sc := sc) (h := h) (id := id) (C := ws_crt s); auto; try discriminate.
      * split; auto.
      * constructor; cbn; auto.
  - assert (blk && win_writes rk = false) as Ew' by (rewrite andb_comm; auto).
    intros E. eapply (Fin (mkWst None (Some h) (rk_closefd rk) (rk_read rk) (win_writes rk) (rk_append rk) false false false) _ (ws_crt s)); [..|exact E]; auto.
    + split; auto.
    + unfold left_over. now rewrite Ew'.
Qed.

Lemma close_held hs C z s h o r z1 s1 : held hs C z s h o -> win_close z s = (r, z1, s1) ->
  r = Ok tt /\ fs_same s s1 /\ (forall x, ws_handles s1 x = hs x) /\ ws_crt s1 = C /\ z_closed z1 = true.
Proof.
  intros Hd. unfold win_close. rewrite (hd_closed _ _ _ _ _ _ Hd). unfold win_close_streams.
  rewrite (hd_closefd _ _ _ _ _ _ Hd), (hd_handle _ _ _ _ _ _ Hd).
  assert (R : forall x, upd Z.eqb (upd Z.eqb hs h (Some o)) h None x = hs x).
  { intros x. destruct (Z.eq_dec x h) as [->|N]; [rewrite upd_z_same; symmetry; apply Hd|]. now rewrite !upd_z_other. }
  destruct (hd_crt _ _ _ _ _ _ Hd) as [[Zf Cs]|(d & Zf & Nd & Cs)]; rewrite Zf.
  - unfold close_handle. rewrite (hd_handles _ _ _ _ _ _ Hd), upd_z_same. intros [= <- <- <-]. repeat split; auto.
  - unfold crt_close. rewrite crt_at by lia. rewrite Nat2Z.id, Cs, upd_same by congruence. unfold close_handle. cbn [ws_handles ws_set_crt].
    rewrite (hd_handles _ _ _ _ _ _ Hd), upd_z_same. intros [= <- <- <-]. repeat split; auto. cbn. now apply upd_back.
Qed.
Lemma fileno_held hs C z s h o r z1 s1 : held hs C z s h o -> win_fileno z s = (r, z1, s1) -> held hs C z1 s1 h o /\ fs_same s s1.
Proof.
  intros Hd. unfold win_fileno. rewrite (hd_closed _ _ _ _ _ _ Hd), (hd_handle _ _ _ _ _ _ Hd).
  destruct (hd_crt _ _ _ _ _ _ Hd) as [[Zf Cs]|(d & Zf & Nd & Cs)]; rewrite Zf.
  - unfold open_osfhandle. destruct (first_free (ws_crt s)) as [d|] eqn:E; [|intros [= <- <- <-]; split; [auto|split; auto]].
    apply first_free_spec in E. rewrite Cs in *.
    assert (K : held hs C (z_set_fileno z (Some (Z.of_nat d))) (ws_set_crt s (nth_update C d (Some h))) h o).
    { constructor; cbn; try apply Hd. right. exists d. auto. }
    cbv zeta. destruct (Z.of_nat d =? 0); intros [= <- <- <-]; (split; [exact K|split; auto]).
  - destruct (Z.of_nat d =? 0); intros [= <- <- <-]; (split; [auto|split; auto]).
Qed.
Lemma wop_held tty op hs C z s h o z1 s1 : held hs C z s h o -> run_wop tty op z s = (z1, s1) -> held hs C z1 s1 h o.
Proof.
  intros Hd. destruct op; cbn [run_wop].
  - destruct (win_fileno z s) as [[r z2] s2] eqn:E. intros [= <- <-]. eapply fileno_held; eauto.
  - unfold win_handle. rewrite (hd_closed _ _ _ _ _ _ Hd), (hd_handle _ _ _ _ _ _ Hd). destruct (h =? 0); intros [= <- <-]; auto.
  - unfold win_isatty. destruct (win_fileno z s) as [[[d|e] z2] s2] eqn:E; intros [= <- <-]; eapply fileno_held; eauto.
Qed.
Lemma wops_held tty ops hs C z s h o z1 s1 : held hs C z s h o -> run_wops tty ops z s = (z1, s1) -> held hs C z1 s1 h o.
Proof.
  revert z s. induction ops as [|op ops IH]; cbn; intros z s Hd; [intros [= <- <-]; auto|].
  destruct (run_wop tty op z s) as [z2 s2] eqn:E. intros E2. apply (IH z2 s2); [|exact E2]. eapply wop_held; eauto.
Qed.

(** * C56: creation *)

Lemma fs_same_trans a b c : fs_same a b -> fs_same b c -> fs_same a c.
Proof. intros [A B] [D E]. split; congruence. Qed.
Lemma fs_created_same p ro a b c id : fs_created p ro a b id -> fs_same b c -> fs_created p ro a c id.
Proof. intros [A B D E F G] [X Y]. constructor; auto; rewrite ?X, ?Y; auto. Qed.
Lemma close_fs z s r z1 s1 : win_close z s = (r, z1, s1) -> fs_same s s1.
Proof.
  unfold win_close, win_close_streams. destruct (z_closed z); [intros [= <- <- <-]; split; auto|].
  destruct (z_closefd z); [|intros [= <- <- <-]; split; auto].
  destruct (z_fileno z) as [d|]; [|destruct (z_handle z) as [h|]].
  - unfold crt_close, close_handle. destruct (crt_handle s d); [|intros [= <- <- <-]; split; auto].
    cbn [ws_handles ws_set_crt]. destruct (ws_handles s z0); intros [= <- <- <-]; split; auto.
  - unfold close_handle. destruct (ws_handles s h); intros [= <- <- <-]; split; auto.
  - intros [= <- <- <-]; split; auto.
Qed.

(** In every outcome: no content and no other name changes; a file appears only where
    there was none and never with must_not_create. *)
Theorem C56_file_system blk rk p ro s r s1 : win_by_path rk p -> win_open blk rk ro s = (r, s1) ->
  fs_same s s1 \/ (rk_must_not_create rk = false /\ exists id, fs_created p ro s s1 id).
Proof.
  intros Hp. unfold win_open. destruct (win_init blk rk ro s) as [[r0 z] s0] eqn:Ei.
  pose proof (win_init_cases _ _ _ _ _ _ _ _ Hp Ei) as Hc.
  assert (X : fs_same s s0 \/ (rk_must_not_create rk = false /\ exists id, fs_created p ro s s0 id)).
  { inversion Hc as [|r1 z1 sx sc s2 h id C A1 A2 A3 A4 A5 A6 A7 A8 A9 A10]; subst; [auto|].
    inversion A2 as [|h0 id0 sy B1 B2 B3 B4 B5 B6 B7|h0 id0 sy B1 B2 B3 B4 B5 B6]; subst; [left; eapply fs_same_trans; eauto|].
    right. split; [|exists id0; eapply fs_created_same; eauto]. unfold win_disposition in B2. destruct (rk_must_not_create rk); congruence. }
  destruct r0 as [[]|e]; [now intros [= <- <-]|]. destruct (win_close z s0) as [[r1 z1] s2] eqn:Ec. intros [= <- <-]. cbn [snd].
  apply close_fs in Ec. destruct X as [X|(X & id & Y)]; [left; eapply fs_same_trans; eauto|right; split; auto; exists id; eapply fs_created_same; eauto].
Qed.

(** Success: the file existed or not as asked for, and the new handle has the access of the mode. *)
Theorem C56_open_success blk rk p ro s z s1 : win_by_path rk p -> win_open blk rk ro s = (Ok z, s1) ->
  (rk_must_create rk = true -> ws_names s p = None) /\ (rk_must_not_create rk = true -> ws_names s p <> None)
  /\ ws_names s1 p <> None /\ (ws_names s p = None -> exists id, fs_created p ro s s1 id) /\ (ws_names s p <> None -> fs_same s s1)
  /\ exists h id, z_handle z = Some h /\ ws_handles s h = None /\ ws_names s1 p = Some id
       /\ ws_handles s1 h = Some (mkHobj (WFile id) (rk_read rk) (rk_write rk || rk_append rk) (rk_synchronized rk) (rk_inheritable rk)).
Proof.
  intros Hp. unfold win_open. destruct (win_init blk rk ro s) as [[[[]|e] z0] s0] eqn:Ei; [|discriminate]. intros [= -> ->].
  pose proof (win_init_cases _ _ _ _ _ _ _ _ Hp Ei) as Hc.
  inversion Hc as [|r1 z1 sx sc s2 h id C A1 A2 A3 A4 A5 A6 A7 A8 A9 A10]; subst.
  assert (Mc : rk_must_create rk && rk_must_not_create rk = false).
  { unfold init_checks in A1. destruct (rk_must_create rk && rk_must_not_create rk); [|reflexivity].
    repeat match type of A1 with (if ?x then _ else _) = _ => destruct x; try discriminate A1 end. }
  inversion A2 as [|h0 id0 sy B1 B2 B3 B4 B5 B6 B7|h0 id0 sy B1 B2 B3 B4 B5 B6]; subst.
  - pose proof (fs_same_trans _ _ _ B1 A4) as Fs. split.
    { unfold win_disposition in B3. intros X. rewrite X in *. cbn in Mc. rewrite Mc in B3. congruence. }
    split; [congruence|]. split; [rewrite (fss_names _ _ Fs); congruence|]. split; [congruence|]. split; [auto|].
    exists h, id0. split; [apply A5|]. split; [auto|]. split; [rewrite (fss_names _ _ Fs); auto|].
    rewrite (hd_handles _ _ _ _ _ _ A5), <- A3, B6, upd_z_same. reflexivity.
  - pose proof (fs_created_same _ _ _ _ _ _ B1 A4) as Fs. split; [intros _; apply Fs|].
    split. { unfold win_disposition in B2. intros X. rewrite X in *. congruence. }
    split; [rewrite (fsc_name _ _ _ _ _ Fs); congruence|]. split; [eauto|]. split; [intros X; destruct X; apply Fs|].
    exists h, id0. split; [apply A5|]. split; [auto|]. split; [apply Fs|].
    rewrite (hd_handles _ _ _ _ _ _ A5), <- A3, B5, upd_z_same. reflexivity.
Qed.

(** When nothing else prevents it, the opening succeeds if the file exists or not as asked for. *)
Theorem C56_open_succeeds blk rk p ro s h l : win_by_path rk p -> init_checks rk = Ok tt ->
  ws_io s = [] -> ws_newh s = h :: l -> 0 < h -> ws_handles s h = None -> used (ws_crt s) < Z.of_nat (length (ws_crt s)) ->
  (match ws_names s p with
   | None => rk_must_not_create rk = false /\ exists id l, ws_newid s = id :: l /\ ws_files s id = None
   | Some id => rk_must_create rk = false /\ exists c b, ws_files s id = Some (c, b) /\ b && win_writes rk = false
   end) -> exists z s1, win_open blk rk ro s = (Ok z, s1).
Proof.
  intros (A & B & D) Hk Hio Hn Hh Hf Hu Hx. unfold win_open, win_init. rewrite Hk. unfold win_obtain. rewrite A, B, D. fold (win_writes rk). cbv zeta.
  assert (X : exists s1, create_file p (rk_read rk) (win_writes rk) (win_disposition rk) (rk_inheritable rk) (rk_synchronized rk) ro s = (Ok h, s1)
     /\ ws_io s1 = [] /\ ws_crt s1 = ws_crt s /\ exists id a1 a2 a3 a4, ws_handles s1 h = Some (mkHobj (WFile id) a1 a2 a3 a4)).
  { unfold create_file, bind, ws_next. rewrite Hio. cbv beta iota.
    assert (N : forall o, new_handle o s = (Ok h, ws_set_newh (ws_set_handles s (upd Z.eqb (ws_handles s) h (Some o))) l)).
    { intros o. unfold new_handle. rewrite Hn, Hf. destruct (h <=? 0) eqn:E; [lia|reflexivity]. }
    unfold win_disposition. destruct (ws_names s p) as [id|].
    - destruct Hx as (Mc & c & b & Fc & Rb). rewrite Mc, Fc, Rb, N.
      destruct (rk_must_not_create rk); eexists; (split; [reflexivity|]); cbn; rewrite upd_z_same; repeat esplit; auto.
    - destruct Hx as (Mc & id & l2 & Fi & Fd). rewrite Mc, Fi, Fd, N.
      destruct (rk_must_create rk); eexists; (split; [reflexivity|]); cbn; rewrite upd_z_same; repeat esplit; auto. }
  destruct X as (s1 & -> & Io & Cs & id & a1 & a2 & a3 & a4 & Ho). unfold z_set_handle. cbn [z_fileno z_closefd z_readable z_writable z_append z_seekable z_closed z_hack].
  set (zz := mkWst None (Some h) (rk_closefd rk) (rk_read rk) (win_writes rk) (rk_append rk) false false false).
  assert (Y : exists s2, win_pipe_hack blk zz s1 = (Ok tt, zz, s2) /\ ws_io s2 = []).
  { unfold win_pipe_hack. cbn [zz z_writable z_handle].
    destruct (win_writes rk && blk); [|exists s1; auto]. unfold open_osfhandle. rewrite Cs. destruct (first_free (ws_crt s)) as [d|] eqn:Ef.
    2:{ apply used_full in Ef. lia. }
    apply first_free_spec in Ef. unfold get_blocking. rewrite crt_at by lia. cbn [ws_crt ws_set_crt ws_handles]. rewrite Nat2Z.id, upd_same, Ho by congruence.
    eexists. split; [reflexivity|]. exact Io. }
  destruct Y as (s2 & -> & Io2). cbn [zz z_fileno]. destruct (rk_append rk); [|eauto].
  unfold win_seek_end, bind, ws_next. rewrite Io2. cbn. eauto.
Qed.

(** * C57: what is released *)

Theorem C57_lifetime blk rk p s s3 : win_by_path rk p -> lifetime blk rk s s3 ->
  (forall h, ws_handles s3 h = ws_handles s h)
  /\ (if blk && win_writes rk
      then exists d h, crt_handle s d = None /\ crt_handle s3 d = Some h /\ ws_handles s3 h = None
             /\ (forall e, e <> d -> crt_handle s3 e = crt_handle s e) /\ used (ws_crt s3) = 1 + used (ws_crt s)
      else ws_crt s3 = ws_crt s).
Proof.
  intros Hp [ro tty ops z s1 z2 s2 r z3 E1 E2 E3]. unfold win_open in E1.
  destruct (win_init blk rk ro s) as [[[[]|e] z0] s0] eqn:Ei; [|discriminate]. injection E1 as -> ->.
  pose proof (win_init_cases _ _ _ _ _ _ _ _ Hp Ei) as Hc.
  inversion Hc as [|r1 z1 sx sc s5 h id C A1 A2 A3 A4 A5 A6 A7 A8 A9 A10]; subst.
  pose proof (wops_held _ _ _ _ _ _ _ _ _ _ A5 E2) as Hd. pose proof (close_held _ _ _ _ _ _ _ _ _ Hd E3) as (_ & _ & X & Y & _).
  split; [exact X|]. specialize (A8 eq_refl). unfold left_over in A8.
  destruct (blk && win_writes rk); [|congruence]. destruct A8 as (d & D1 & ->).
  assert (used (ws_crt s3) = 1 + used (ws_crt s)) as U by (rewrite Y; now apply used_upd).
  exists (Z.of_nat d), h. rewrite !crt_at, Nat2Z.id, D1, Y, upd_same by (congruence || lia).
  split; [auto|]. split; [auto|]. split; [rewrite X; apply Hd|]. split.
  - intros e He. destruct (Z.ltb_spec e 0) as [L|L]; [unfold crt_handle; apply Z.ltb_lt in L; now rewrite L|].
    rewrite !crt_at, Y, upd_other by lia. reflexivity.
  - now rewrite <- Y.
Qed.

(** Everything is released when the test of blocking modes is not done. *)
Corollary C57_released_partial blk rk p s s3 : win_by_path rk p -> blk && win_writes rk = false -> lifetime blk rk s s3 ->
  (forall h, ws_handles s3 h = ws_handles s h) /\ ws_crt s3 = ws_crt s.
Proof. intros Hp Hb Hl. pose proof (C57_lifetime _ _ _ _ _ Hp Hl) as [A B]. rewrite Hb in B. auto. Qed.

(** When it is, each stream costs one C descriptor for the rest of the life of the process... *)
Theorem C57_writable_streams_leak rk p n s s' : win_by_path rk p -> win_writes rk = true -> lifetimes true rk n s s' ->
  used (ws_crt s') = Z.of_nat n + used (ws_crt s) /\ Z.of_nat n + used (ws_crt s) <= Z.of_nat (length (ws_crt s')).
Proof.
  intros Hp Hw Hl. assert (used (ws_crt s') = Z.of_nat n + used (ws_crt s)) as U.
  { induction Hl as [|n s s1 s2 H1 H2 IH]; [lia|]. rewrite IH. pose proof (C57_lifetime _ _ _ _ _ Hp H1) as [_ B].
    rewrite Hw in B. destruct B as (d & h & _ & _ & _ & _ & B). lia. }
  split; [exact U|]. rewrite <- U. apply used_bounds.
Qed.
(** ... until no file can be opened for writing any more. *)
Theorem C57_exhausted rk p ro s : win_by_path rk p -> win_writes rk = true -> used (ws_crt s) = Z.of_nat (length (ws_crt s)) ->
  exists e, fst (win_open true rk ro s) = Err e.
Proof.
  intros Hp Hw Hu. unfold win_open. destruct (win_init true rk ro s) as [[[[]|e] z0] s0] eqn:Ei; [|cbn; eauto].
  pose proof (win_init_cases _ _ _ _ _ _ _ _ Hp Ei) as Hc.
  inversion Hc as [|r1 z1 sx sc s5 h id C A1 A2 A3 A4 A5 A6 A7 A8 A9 A10]; subst. specialize (A8 eq_refl). unfold left_over in A8. rewrite Hw in A8.
  destruct A8 as (d & D1 & _). pose proof (used_upd _ _ 0 D1) as X. pose proof (used_bounds (nth_update (ws_crt s) d (Some 0))) as Y.
  rewrite upd_len in Y. lia.
Qed.

(** A failed opening leaves no handle. *)
Theorem C57_failed_open blk rk p ro s e s1 : win_by_path rk p -> win_open blk rk ro s = (Err e, s1) ->
  (forall h, ws_handles s1 h = ws_handles s h) /\ (blk && win_writes rk = false -> ws_crt s1 = ws_crt s).
Proof.
  intros Hp. unfold win_open. destruct (win_init blk rk ro s) as [[[[]|e0] z0] s0] eqn:Ei; [discriminate|].
  destruct (win_close z0 s0) as [[r1 z1] s2] eqn:Ec. cbn [snd]. intros [= -> ->].
  pose proof (win_init_cases _ _ _ _ _ _ _ _ Hp Ei) as Hc.
  inversion Hc as [e1 z2 sx A1 A2 A3 A4 A5 A6|r2 z2 sx sc s5 h id C A1 A2 A3 A4 A5 A6 A7 A8 A9 A10]; subst.
  - unfold win_close in Ec. rewrite A3 in Ec. unfold win_close_streams in Ec. rewrite A1, A2 in Ec.
    assert (s1 = s0) as -> by (destruct (z_closefd z0); injection Ec; auto). split; [intros h; now rewrite A5|auto].
  - pose proof (close_held _ _ _ _ _ _ _ _ _ A5 Ec) as (_ & _ & X & Y & _). split; [exact X|]. intros Hb. rewrite Y. auto.
Qed.

(** The property as expected, and two ways in which it fails. *)
Definition released : Prop := forall blk rk s s3, lifetime blk rk s s3 -> init_checks rk = Ok tt -> used (ws_crt s3) <= used (ws_crt s).

Definition wdemo : wsys :=
  mkWsys (fun _ => None) (fun _ => None) (fun h => if h =? 8 then Some (mkHobj (WFile 9) true true false false) else None)
    [Some 100; Some 104; Some 108; None; None; None] [4; 12; 16] [1; 2; 3] [].
Definition wpath (mode : string) : raw_kwargs :=
  match rsopen_prelude false (NPath (list_ascii_of_string "f")) (list_ascii_of_string mode) None None true None true false false false false with
  | Ok (rk, _) => rk | Err _ => mkRaw NNone false false false false false false false None None true end.
Theorem C57_writable_refuted : ~ released.
Proof.
  intros R. destruct (win_open true (wpath "wb") false wdemo) as [[z|e] s1] eqn:E; [|vm_compute in E; discriminate].
  destruct (win_close z s1) as [[r z3] s3] eqn:E3.
  assert (L : lifetime true (wpath "wb") wdemo s3) by (eapply (Lifetime _ _ _ _ false (fun _ => false) []); [exact E|reflexivity|exact E3]).
  specialize (R _ _ _ _ L eq_refl). clear L. rename R into L. vm_compute in E. injection E as <- <-. vm_compute in E3. injection E3 as _ _ <-. vm_compute in L. now destruct L.
Qed.
(** A wrapped handle that is not to be closed: the C descriptor made by fileno() stays. *)
Definition wrapped8 : raw_kwargs := mkRaw NNone true false false false false false false None (Some 8) false.
Theorem C57_wrapped_refuted : ~ (forall s s3, lifetime false wrapped8 s s3 -> used (ws_crt s3) <= used (ws_crt s)).
Proof.
  intros R. destruct (win_open false wrapped8 false wdemo) as [[z|e] s1] eqn:E; [|vm_compute in E; discriminate].
  destruct (run_wops (fun _ => false) [WFileno] z s1) as [z2 s2] eqn:E2. destruct (win_close z2 s2) as [[r z3] s3] eqn:E3.
  assert (L : lifetime false wrapped8 wdemo s3) by (eapply Lifetime; eauto).
  apply R in L. vm_compute in E. injection E as <- <-. vm_compute in E2. injection E2 as <- <-. vm_compute in E3. injection E3 as _ _ <-. vm_compute in L. now destruct L.
Qed.

(** * C58: fileno() *)

(** The C descriptor of a stream belongs to its handle. *)
Definition own_fd (z : wst) (s : wsys) : Prop :=
  forall d, z_fileno z = Some d -> exists h, z_handle z = Some h /\ crt_handle s d = Some h.
Lemma own_new z s h d : z_handle z = Some h -> nth_error (ws_crt s) d = Some None ->
  own_fd (z_set_fileno z (Some (Z.of_nat d))) (ws_set_crt s (nth_update (ws_crt s) d (Some h))).
Proof.
  intros Zh Hd x [= <-]. exists h. split; [exact Zh|]. rewrite crt_at, Nat2Z.id by lia. cbn [ws_crt ws_set_crt]. rewrite upd_same; congruence.
Qed.
Lemma own_keep z s h d : own_fd z s -> nth_error (ws_crt s) d = Some None ->
  own_fd z (ws_set_crt s (nth_update (ws_crt s) d (Some h))).
Proof.
  intros O Hd x Hx. destruct (O x Hx) as (k & K1 & K2). exists k. split; [auto|].
  assert (0 <= x) as Px. { unfold crt_handle in K2. destruct (x <? 0) eqn:E; [discriminate|lia]. }
  rewrite crt_at in * by lia. cbn [ws_crt ws_set_crt].
  destruct (Nat.eq_dec d (Z.to_nat x)) as [->|N]; [rewrite Hd in K2; discriminate|]. now rewrite upd_other.
Qed.
Lemma own_open blk rk ro s z s1 : win_open blk rk ro s = (Ok z, s1) -> own_fd z s1 /\ z_closed z = false /\ z_handle z <> None.
Proof.
  unfold win_open, win_init. destruct (init_checks rk); [|discriminate].
  set (z0 := mkWst _ _ _ _ _ _ _ _ _). cbv zeta.
  destruct (win_obtain rk ro z0 s) as [[[u|e] z1] s2] eqn:E1; [|discriminate]. unfold win_obtain in E1.
  assert (O1 : own_fd z1 s2 /\ z_closed z1 = false /\ z_handle z1 <> None).
  { cbv zeta in E1. destruct (rk_handle rk) as [h|]; [injection E1 as _ <- <-; split; [intros d; discriminate|split; [auto|discriminate]]|].
    destruct (rk_fileno rk) as [fd|].
    - unfold get_osfhandle in E1. destruct (crt_handle s fd) as [h|] eqn:Eh; [|discriminate]. injection E1 as _ <- <-.
      split; [|split; [auto|discriminate]]. intros d [= <-]. exists h. auto.
    - destruct (rk_path rk) as [|p|n]; try discriminate.
      destruct (create_file _ _ _ _ _ _ _ s) as [[h|e] s3]; [|discriminate]. injection E1 as _ <- <-.
      split; [intros d; discriminate|split; [auto|discriminate]]. }
  clear E1 z0. destruct O1 as (O1 & O2 & O3).
  destruct (win_pipe_hack blk z1 s2) as [[[v|e] z2] s3] eqn:E2; [|discriminate].
  assert (O : own_fd z2 s3 /\ z_closed z2 = false /\ z_handle z2 <> None).
  { unfold win_pipe_hack in E2. destruct (z_writable z1 && blk); [|injection E2 as _ <- <-; auto].
    destruct (z_handle z1) as [h|] eqn:Eh; [|now destruct O3]. unfold open_osfhandle in E2.
    destruct (first_free (ws_crt s2)) as [d|] eqn:Ef; [|discriminate]. apply first_free_spec in Ef.
    assert (Kn : own_fd z1 (ws_set_crt s2 (nth_update (ws_crt s2) d (Some h)))) by now apply own_keep.
    assert (Kw : own_fd (z_set_hack (z_set_fileno z1 (Some (Z.of_nat d)))) (ws_set_crt s2 (nth_update (ws_crt s2) d (Some h)))) by (intros x; apply (own_new z1 s2 h d); auto).
    set (s4 := ws_set_crt s2 _) in *. unfold get_blocking in E2. destruct (crt_handle s4 (Z.of_nat d)) as [k|]; [|injection E2 as _ <- <-; rewrite Eh; auto].
    destruct (ws_handles s4 k) as [[[id|b] x1 x2 x3 x4]|]; [injection E2 as _ <- <-; rewrite Eh; auto| |injection E2 as _ <- <-; rewrite Eh; auto].
    destruct b; injection E2 as _ <- <-; rewrite ?Eh; auto. split; [exact Kw|]. split; [exact O2|]. cbn. congruence. }
  clear E2 O1 O2 O3 z1. destruct O as (O1 & O2 & O3).
  assert (Es : forall r s4, (match z_fileno z2 with Some d => crt_is_regular d s3 | None => (Ok true, s3) end) = (r, s4) -> s4 = s3).
  { intros r s4. destruct (z_fileno z2) as [d|]; [|now intros [= _ <-]]. unfold crt_is_regular.
    destruct (crt_handle s3 d) as [k|]; [destruct (ws_handles s3 k)|]; now intros [= _ <-]. }
  destruct (match z_fileno z2 with Some d => crt_is_regular d s3 | None => (Ok true, s3) end) as [r s4]. rewrite (Es _ _ eq_refl).
  destruct r as [b|e]; [|discriminate]. cbv zeta. destruct (rk_append rk).
  - destruct (win_seek_end s3) as [[u2|e] s5] eqn:E5; [|discriminate]. intros [= <- <-]. apply seek_end_keeps in E5. destruct E5 as (_ & _ & E5).
    split; [|auto]. intros d Hd. destruct (O1 d Hd) as (k & K1 & K2). exists k. split; [auto|]. unfold crt_handle in *. now rewrite E5.
  - intros [= <- <-]. split; [exact O1|auto].
Qed.
Lemma own_wop tty op z s z1 s1 : own_fd z s -> z_closed z = false -> z_handle z <> None -> run_wop tty op z s = (z1, s1) ->
  own_fd z1 s1 /\ z_closed z1 = false /\ z_handle z1 = z_handle z /\ (z_fileno z <> None -> z1 = z /\ s1 = s).
Proof.
  intros O Zc Zh.
  assert (F : forall r z2 s2, win_fileno z s = (r, z2, s2) -> own_fd z2 s2 /\ z_closed z2 = false /\ z_handle z2 = z_handle z /\ (z_fileno z <> None -> z2 = z /\ s2 = s)).
  { intros r z2 s2. unfold win_fileno. rewrite Zc. destruct (z_fileno z) as [d|] eqn:Ef.
    - destruct (d =? 0); intros [= _ <- <-]; auto.
    - destruct (z_handle z) as [h|] eqn:Eh; [|now destruct Zh]. unfold open_osfhandle.
      destruct (first_free (ws_crt s)) as [d|] eqn:E; [|intros [= _ <- <-]; repeat split; auto; congruence].
      apply first_free_spec in E. pose proof (own_new _ _ _ _ Eh E) as K. cbv zeta.
      destruct (Z.of_nat d =? 0); intros [= _ <- <-]; (split; [exact K|]; split; [exact Zc|]; split; [exact Eh|]; congruence). }
  destruct op; cbn [run_wop].
  - destruct (win_fileno z s) as [[r z2] s2]. intros [= <- <-]. eauto.
  - unfold win_handle. rewrite Zc. destruct (z_handle z) as [h|] eqn:Eh; [|now destruct Zh]. destruct (h =? 0); intros [= <- <-]; repeat split; auto; congruence.
  - unfold win_isatty. destruct (win_fileno z s) as [[[d|e] z2] s2]; intros [= <- <-]; eauto.
Qed.
Lemma own_wops tty ops z s z1 s1 : own_fd z s -> z_closed z = false -> z_handle z <> None -> run_wops tty ops z s = (z1, s1) ->
  own_fd z1 s1 /\ z_closed z1 = false /\ z_handle z1 = z_handle z /\ (z_fileno z <> None -> z1 = z /\ s1 = s).
Proof.
  revert z s. induction ops as [|op ops IH]; cbn; intros z s O Zc Zh; [intros [= <- <-]; auto|].
  destruct (run_wop tty op z s) as [z2 s2] eqn:E. intros E2. destruct (own_wop _ _ _ _ _ _ O Zc Zh E) as (A & B & C & D).
  destruct (IH z2 s2) as (A2 & B2 & C2 & D2); auto; [congruence|]. split; [auto|]. split; [auto|]. split; [congruence|].
  intros N. destruct (D N) as [-> ->]. auto.
Qed.

(** Whatever was called before, fileno() gives a C descriptor of the handle of the stream, always
    the same; it fails only when none is free or when it would be 0. *)
Theorem C58_fileno_partial blk rk ro s z0 s0 tty ops z s1 r z2 s2 :
  win_open blk rk ro s = (Ok z0, s0) -> run_wops tty ops z0 s0 = (z, s1) -> win_fileno z s1 = (r, z2, s2) ->
  match r with
  | Ok d => d <> 0 /\ (exists h, z_handle z0 = Some h /\ crt_handle s2 d = Some h)
            /\ forall tty' ops' z3 s3, run_wops tty' ops' z2 s2 = (z3, s3) -> win_fileno z3 s3 = (Ok d, z3, s3)
  | Err EAssert => z_fileno z2 = Some 0
  | Err e => e = EOS EMFILE /\ z_fileno z = None /\ used (ws_crt s1) = Z.of_nat (length (ws_crt s1))
  end.
Proof.
  intros E1 E2 E3. destruct (own_open _ _ _ _ _ _ E1) as (A & B & C). destruct (own_wops _ _ _ _ _ _ A B C E2) as (A1 & B1 & C1 & _).
  assert (Ch : z_handle z <> None) by congruence.
  assert (Ef : run_wop tty WFileno z s1 = (z2, s2)) by (cbn; now rewrite E3).
  destruct (own_wop _ _ _ _ _ _ A1 B1 Ch Ef) as (A2 & B2 & C2 & _).
  unfold win_fileno in E3. rewrite B1 in E3. destruct (z_handle z) as [h|] eqn:Eh; [|now destruct Ch].
  assert (Done : forall d, z_fileno z2 = Some d -> d <> 0 -> r = Ok d -> match r with
  | Ok d => d <> 0 /\ (exists h, z_handle z0 = Some h /\ crt_handle s2 d = Some h)
            /\ forall tty' ops' z3 s3, run_wops tty' ops' z2 s2 = (z3, s3) -> win_fileno z3 s3 = (Ok d, z3, s3)
  | Err EAssert => z_fileno z2 = Some 0
  | Err e => e = EOS EMFILE /\ z_fileno z = None /\ used (ws_crt s1) = Z.of_nat (length (ws_crt s1))
  end).
  { intros d Hf Nz ->. split; [auto|]. split.
    - destruct (A2 d Hf) as (k & K1 & K2). exists k. split; congruence.
    - intros tty' ops' z3 s3 E4. destruct (own_wops _ _ _ _ _ _ A2 B2 ltac:(congruence) E4) as (_ & _ & _ & D3).
      destruct (D3 ltac:(congruence)) as [-> ->]. unfold win_fileno. rewrite B2, Hf. destruct (d =? 0) eqn:E0; [lia|reflexivity]. }
  destruct (z_fileno z) as [d|] eqn:Ed.
  - destruct (d =? 0) eqn:E0; injection E3 as <- <- <-.
    + rewrite Ed. f_equal. lia.
    + apply (Done d); auto. lia.
  - unfold open_osfhandle in E3. destruct (first_free (ws_crt s1)) as [d|] eqn:Eq.
    + cbv zeta in E3. destruct (Z.of_nat d =? 0) eqn:E0; injection E3 as <- <- <-.
      * cbn. f_equal. lia.
      * apply (Done (Z.of_nat d)); auto. lia.
    + injection E3 as <- <- <-. apply used_full in Eq. auto.
Qed.

(** Descriptor 0 is refused, even when it is the one that was given. *)
Definition wrapped0 : raw_kwargs := mkRaw NNone true false false false false false false (Some 0) None true.
Theorem C58_fileno_zero_refuted :
  ~ (forall s z s1, win_open true wrapped0 false s = (Ok z, s1) -> exists z2 s2, win_fileno z s1 = (Ok 0, z2, s2)).
Proof.
  intros R. set (s := mkWsys (fun _ => None) (fun _ => None) (fun h => if h =? 8 then Some (mkHobj (WFile 9) true true false false) else None)
    [Some 8] [] [] []).
  destruct (win_open true wrapped0 false s) as [[z|e] s1] eqn:E; [|vm_compute in E; discriminate].
  destruct (R _ _ _ E) as (z2 & s2 & X). vm_compute in E. injection E as <- <-. vm_compute in X. discriminate.
Qed.

(** * Examples *)

Definition wsee (blk : bool) (mode : string) :=
  match win_open blk (wpath mode) false wdemo with
  | (Ok z, s1) =>
      let '(rf, z1, s2) := win_fileno z s1 in
      let '(_, _, s3) := win_close z1 s2 in
      (Ok (z_handle z), rf, used (ws_crt s1), used (ws_crt s2), used (ws_crt s3), map (ws_handles s3) [4; 8])
  | (Err e, s1) => (Err e, Err e, 0, 0, used (ws_crt s1), map (ws_handles s1) [4; 8])
  end.
Example C56_example : wsee true "rb" = (Err (EOS ENOENT), Err (EOS ENOENT), 0, 0, 3, [None; Some (mkHobj (WFile 9) true true false false)])
  /\ wsee true "wb" = (Ok (Some 4), Ok 4, 4, 5, 4, [None; Some (mkHobj (WFile 9) true true false false)])
  /\ wsee false "wb" = (Ok (Some 4), Ok 3, 3, 4, 3, [None; Some (mkHobj (WFile 9) true true false false)]).
Proof. vm_compute. auto. Qed.
(** Three writable streams use up what is free here. *)
Example C57_example : exists s, lifetimes true (wpath "wb") 3 wdemo s /\ used (ws_crt s) = Z.of_nat (length (ws_crt s)).
Proof.
  assert (St : forall s0, match win_open true (wpath "wb") false s0 with
       | (Ok z, s1) => match win_close z s1 with (_, _, s3) => lifetime true (wpath "wb") s0 s3 end | _ => True end).
  { intros s0. destruct (win_open true (wpath "wb") false s0) as [[z|e] s1] eqn:E; [|exact I].
    destruct (win_close z s1) as [[r z3] s3] eqn:E3. eapply (Lifetime _ _ _ _ false (fun _ => false) []); [exact E|reflexivity|exact E3]. }
  pose proof (St wdemo) as H1.
  destruct (win_open true (wpath "wb") false wdemo) as [[z1|e] s1] eqn:E1; [|vm_compute in E1; discriminate].
  destruct (win_close z1 s1) as [[q1 y1] t1] eqn:F1. pose proof (St t1) as H2.
  vm_compute in E1. injection E1 as <- <-. vm_compute in F1. injection F1 as _ _ Ft1.
  destruct (win_open true (wpath "wb") false t1) as [[z2|e] s2] eqn:E2; [|rewrite <- Ft1 in E2; vm_compute in E2; discriminate].
  destruct (win_close z2 s2) as [[q2 y2] t2] eqn:F2. pose proof (St t2) as H3.
  rewrite <- Ft1 in E2. vm_compute in E2. injection E2 as <- <-. vm_compute in F2. injection F2 as _ _ Ft2.
  destruct (win_open true (wpath "wb") false t2) as [[z3|e] s3] eqn:E3; [|rewrite <- Ft2 in E3; vm_compute in E3; discriminate].
  destruct (win_close z3 s3) as [[q3 y3] t3] eqn:F3.
  rewrite <- Ft2 in E3. vm_compute in E3. injection E3 as <- <-. vm_compute in F3. injection F3 as _ _ Ft3.
  exists t3. split; [|rewrite <- Ft3; reflexivity].
  eapply Lt_more; [exact H1|]. eapply Lt_more; [exact H2|]. eapply Lt_more; [exact H3|]. constructor.
Qed.

Print Assumptions C56_file_system.
Print Assumptions C56_open_success.
Print Assumptions C56_open_succeeds.
Print Assumptions C57_lifetime.
Print Assumptions C57_released_partial.
Print Assumptions C57_writable_streams_leak.
Print Assumptions C57_exhausted.
Print Assumptions C57_failed_open.
Print Assumptions C57_writable_refuted.
Print Assumptions C57_wrapped_refuted.
Print Assumptions C58_fileno_partial.
Print Assumptions C58_fileno_zero_refuted.
