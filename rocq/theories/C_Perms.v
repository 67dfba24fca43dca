(** C93: the permissions of the files that rsopen makes (unix). *)
From Coq Require Import ZArith Ascii String List Bool Lia.
From Verif Require Import M_Base M_Modes M_World M_WinHandles M_Perms S_Modes S_Perms S_Demo P_Modes P_Open C_Modes C_Open C_Opening.
Import ListNotations.
Open Scope Z_scope.

Lemma perms_plain py_u p m perms s : rsopen_perms py_u p m perms s =
  match plain_open py_u p m with
  | Ok (rk, _) => perms_open p (unix_open_flags rk) perms s
  | Err e => (Err e, s)
  end.
Proof.
  unfold rsopen_perms, plain_open. destruct (rsopen_prelude _ _ _ _ _ _ _ _ _ _ _ _) as [[rk ek]|e]; [|reflexivity].
  now destruct (init_checks rk).
Qed.
Lemma masked_bits perms umask : masked (Z.land (Z.land perms 4095) (Z.lnot umask)) perms umask.
Proof.
  intros k Hk. rewrite !Z.land_spec, Z.lnot_spec by exact Hk. f_equal. rewrite andb_comm. f_equal.
  change 4095 with (Z.ones 12). destruct (Z.ltb_spec k 12).
  - apply Z.ones_spec_low. lia.
  - apply Z.ones_spec_high. lia.
Qed.
(** What the mode asks for, in the flags. *)
Lemma asks_flags py_u p m wi : good_path p -> mode_asks py_u m wi ->
  exists rk ek, plain_open py_u p m = Ok (rk, ek)
    /\ (w_read wi = true -> of_rd (unix_open_flags rk) = true) /\ (of_rd (unix_open_flags rk) = true -> w_read wi = true)
    /\ of_wr (unix_open_flags rk) = w_write wi
    /\ of_creat (unix_open_flags rk) = negb (w_must_not_create wi)
    /\ of_excl (unix_open_flags rk) = negb (w_must_not_create wi) && w_must_create wi.
Proof.
  intros Gp Ms. destruct (asks_plain _ _ _ _ Gp Ms) as (rk & ek & E & <-). destruct (asks_write _ _ _ Ms) as (Wa & _ & Wr).
  destruct (flags_fields rk) as (_ & F1 & F2 & _ & _ & F3 & F4). exists rk, ek.
  cbn [wish_of w_read w_write w_append w_must_create w_must_not_create] in *.
  assert (Wo : rk_write rk || rk_append rk = rk_write rk) by (destruct (rk_write rk), (rk_append rk); auto; now specialize (Wa eq_refl)).
  rewrite Wo in *. repeat split; auto.
  - intros X. rewrite F1, X. now destruct (rk_write rk).
  - rewrite F1. destruct (rk_write rk); [auto|]. intros _. now rewrite orb_false_r in Wr.
Qed.

(** A file that is made gets the permissions given, without those masked; they do not matter to the call itself.
    Other files keep theirs. *)
Theorem C93_new_file py_u p m wi perms s : good_path p -> mode_asks py_u m wi ->
  pf_perms s p = None -> w_must_not_create wi = false ->
  exists fl s' bits, rsopen_perms py_u p m perms s = (Ok fl, s') /\ of_rd fl = w_read wi /\ of_wr fl = w_write wi
    /\ pf_perms s' p = Some bits /\ masked bits perms (pf_umask s)
    /\ forall q, q <> p -> pf_perms s' q = pf_perms s q.
Proof.
  intros Gp Ms Hn Hc. destruct (asks_flags _ _ _ _ Gp Ms) as (rk & ek & E & F1 & F2 & F3 & F4 & _).
  rewrite perms_plain, E. unfold perms_open. rewrite Hn, F4, Hc. cbn [negb]. eexists _, _, _. split; [reflexivity|].
  split. { destruct (of_rd _), (w_read wi); auto; symmetry; auto. }
  split; [exact F3|]. cbn [pf_perms]. unfold upd.
  split. { assert (names_eqb p p = true) as -> by now apply str_eqb_spec. reflexivity. }
  split; [apply masked_bits|]. intros q Hq. destruct (names_eqb p q) eqn:X; [|reflexivity]. apply str_eqb_spec in X. congruence.
Qed.

(** A file that exists keeps its permissions, and so do all files if the call fails. *)
Theorem C93_existing_file py_u p m perms s r s' : rsopen_perms py_u p m perms s = (r, s') ->
  (forall q, pf_perms s q <> None -> pf_perms s' q = pf_perms s q) /\ (forall e, r = Err e -> s' = s)
  /\ pf_umask s' = pf_umask s.
Proof.
  rewrite perms_plain. destruct (plain_open py_u p m) as [[rk ek]|e].
  2:{ intros [= <- <-]. auto. }
  unfold perms_open. destruct (pf_perms s p) as [b|] eqn:Ep.
  - destruct (_ && _); [intros [= <- <-]; auto|]. destruct (may_open s b _); intros [= <- <-]; auto.
  - destruct (of_creat _); intros [= <- <-]; [|auto]. cbn [pf_perms pf_umask]. split; [|split; [discriminate|reflexivity]].
    intros q Hq. unfold upd. destruct (names_eqb p q) eqn:X; [|reflexivity]. apply str_eqb_spec in X. congruence.
Qed.

(** They apply to the calls that follow: the owner can open the file again to read or write exactly if its bits allow it. *)
Theorem C93_later_opens py_u p m wi perms s bits : good_path p -> mode_asks py_u m wi -> pf_root s = false ->
  pf_perms s p = Some bits -> w_must_create wi = false ->
  ((exists fl, rsopen_perms py_u p m perms s = (Ok fl, s))
   <-> (w_read wi = true -> Z.testbit bits 8 = true) /\ (w_write wi = true -> Z.testbit bits 7 = true))
  /\ ((exists fl, rsopen_perms py_u p m perms s = (Ok fl, s)) \/ rsopen_perms py_u p m perms s = (Err (EOS EACCES), s)).
Proof.
  intros Gp Ms Hr Hb Hc. destruct (asks_flags _ _ _ _ Gp Ms) as (rk & ek & E & F1 & F2 & F3 & _ & F5).
  rewrite perms_plain, E. unfold perms_open. rewrite Hb, F5, Hc, !andb_false_r.
  assert (M : may_open s bits (unix_open_flags rk) = true
              <-> (w_read wi = true -> Z.testbit bits 8 = true) /\ (w_write wi = true -> Z.testbit bits 7 = true)).
  { unfold may_open, owner_reads, owner_writes. rewrite Hr, F3. cbn [orb]. rewrite andb_true_iff, !orb_true_iff, !negb_true_iff.
    destruct (of_rd (unix_open_flags rk)), (w_read wi), (w_write wi);
      try (specialize (F1 eq_refl); discriminate); try (specialize (F2 eq_refl); discriminate); intuition congruence. }
  destruct (may_open _ _ _); (split; [|eauto]).
  - split; [intros _; now apply M|eauto].
  - split; [intros (fl & X); discriminate|]. intros X. apply M in X. discriminate.
Qed.

(** * Against the open() of python *)

(** In the place of open() of python (modes of python, default permissions): files get the same permissions, except
    that those who may execute them are not left out. *)
Theorem C93_like_python_partial p m s : good_path p -> (forall c, In c m -> is_upper c = false \/ c = "U"%char) ->
  let '(r1, s1) := rsopen_perms false p m default_perms s in
  let '(r2, s2) := pyio_open_perms p m s in
  ((exists fl, r1 = Ok fl) <-> exists fl, r2 = Ok fl) /\ (forall n, r1 = Err (EOS n) <-> r2 = Err (EOS n))
  /\ forall q, match pf_perms s1 q, pf_perms s2 q with
               | Some b1, Some b2 => forall k, 0 <= k -> ~ exec_bit k -> Z.testbit b1 k = Z.testbit b2 k
               | None, None => True
               | _, _ => False
               end.
Proof.
  intros Gp Hm. pose proof (C04_stdlib_agreement p m Gp Hm) as A. rewrite perms_plain. unfold pyio_open_perms.
  assert (Rf : forall q, match pf_perms s q, pf_perms s q with
               | Some b1, Some b2 => forall k, 0 <= k -> ~ exec_bit k -> Z.testbit b1 k = Z.testbit b2 k
               | None, None => True | _, _ => False end) by (intros q; destruct (pf_perms s q); auto).
  destruct (pyio_open_mode m) as [[fl b]|e] eqn:Ep.
  - destruct A as (rk & ek & E & A1 & A2 & _ & A3 & A4 & _). rewrite E. unfold perms_open, may_open. rewrite A1, A2, A3, A4.
    destruct (pf_perms s p) as [bits|] eqn:Eb.
    + destruct (of_creat fl && of_excl fl); [split; [|split; [tauto|exact Rf]]; split; intros (? & ?); discriminate|].
      destruct (_ || _); (split; [|split; [|exact Rf]]); (split; [intros (? & ?)|intros (? & ?)] || split); eauto; discriminate.
    + destruct (of_creat fl).
      2:{ split; [|split; [tauto|exact Rf]]; split; intros (? & ?); discriminate. }
      split; [split; intros _; eauto|]. split; [intros n; split; discriminate|]. cbn [pf_perms]. intros q. unfold upd. destruct (names_eqb p q); [|exact (Rf q)].
      intros k Hk Nx. rewrite (masked_bits default_perms (pf_umask s) k Hk), (masked_bits 438 (pf_umask s) k Hk). f_equal. f_equal.
      unfold default_perms. destruct (Z.ltb_spec k 9).
      * assert (k = 0 \/ k = 1 \/ k = 2 \/ k = 3 \/ k = 4 \/ k = 5 \/ k = 6 \/ k = 7 \/ k = 8) as C by lia.
        unfold exec_bit in Nx. decompose [or] C; subst; try reflexivity; exfalso; apply Nx; auto.
      * change 511 with (Z.ones 9). rewrite Z.ones_spec_high by lia. symmetry. rewrite Z.bits_above_log2; [reflexivity|lia|].
        change (Z.log2 438) with 8. lia.
  - rewrite A. assert (e = EValue) as ->.
    { unfold pyio_open_mode in Ep. repeat match type of Ep with (if ?x then _ else _) = _ => destruct x; [now injection Ep|] end.
      repeat match type of Ep with (let '(_, _) := ?x in _) = _ => destruct x end. discriminate. }
    split; [split; intros (? & ?); discriminate|]. split; [intros n; split; discriminate|exact Rf].
Qed.

(** The same permissions altogether: false, data files become executable. *)
Definition nobody_made (umask : Z) : pfs := mkPfs (fun _ => None) umask false.
Theorem C93_like_python_refuted :
  ~ (forall p m s fl1 s1 fl2 s2, good_path p -> std_ok false m ->
       rsopen_perms false p m default_perms s = (Ok fl1, s1) -> pyio_open_perms p m s = (Ok fl2, s2) ->
       forall q, pf_perms s1 q = pf_perms s2 q).
Proof.
  intros H. assert (Gp : good_path (name "f")) by (split; [discriminate|cbn; intuition discriminate]).
  assert (So : std_ok false (name "w")).
  { unfold std_ok. repeat split; try (cbn; intuition discriminate). repeat constructor; cbn; intuition discriminate. }
  specialize (H (name "f") (name "w") (nobody_made 18) _ _ _ _ Gp So eq_refl eq_refl (name "f")). vm_compute in H. discriminate H.
Qed.

(** umask 022: 0o755 against 0o644; a file made with permissions 0o444 is written, and cannot be written again. *)
Example C93_example :
  let s := nobody_made 18 in
  pf_perms (snd (rsopen_perms false (name "f") (name "w") default_perms s)) (name "f") = Some 493
  /\ pf_perms (snd (pyio_open_perms (name "f") (name "w") s)) (name "f") = Some 420
  /\ let (r, s1) := rsopen_perms false (name "f") (name "w") 292 s in
     match r with Ok fl => of_wr fl | Err _ => false end = true /\ pf_perms s1 (name "f") = Some 292
     /\ fst (rsopen_perms false (name "f") (name "w") 511 s1) = Err (EOS EACCES)
     /\ match fst (rsopen_perms false (name "f") (name "r") 511 s1) with Ok fl => of_rd fl | Err _ => false end = true.
Proof. vm_compute. auto 8. Qed.

Print Assumptions C93_new_file.
Print Assumptions C93_existing_file.
Print Assumptions C93_later_opens.
Print Assumptions C93_like_python_partial.
Print Assumptions C93_like_python_refuted.
