(** The decoder of a text stream, without its memory of the newlines seen. *)
From Coq Require Import ZArith List Bool Lia.
From Verif Require Import M_Base M_Newline M_Text S_Newline S_Bytes S_Text P_Newline.
Import ListNotations.
Open Scope Z_scope.

(** Bytes kept, flags, CR held back. *)
Definition dcore : Type := (list Z * Z * bool)%type.
Definition core (c : tconf) (d : dec) : dcore :=
  (d_buf d, d_flags d, if readuniversal c then nl_pending (d_nl d) else false).
Definition heldb (pd : bool) : list Z := if pd then [CR] else [].

Definition nlc (tr fin pd : bool) (raw : list Z) : list Z * bool :=
  let o := heldb pd ++ raw in
  let cut := ends_cr o && negb fin in (emit tr (if cut then removelast o else o), cut).

Definition dstep (c : tconf) (s : dcore) (x : list Z) (fin : bool) : option (list Z * dcore) :=
  let '(b, f, pd) := s in
  match cd_decode (tc_codec c) (b, f) x fin with
  | None => None
  | Some (raw, (b', f')) =>
      if readuniversal c then let '(o, pd') := nlc (readtranslate c) fin pd raw in Some (o, (b', f', pd'))
      else Some (raw, (b', f', false))
  end.

Lemma dec_decode_core c d x fin :
  match dec_decode c d x fin with
  | None => dstep c (core c d) x fin = None
  | Some (o, d') => dstep c (core c d) x fin = Some (o, core c d')
  end.
Proof.
  unfold dec_decode, dstep, core. destruct (cd_decode (tc_codec c) (d_buf d, d_flags d) x fin) as [[raw [b' f']]|]; [|reflexivity].
  destruct (readuniversal c) eqn:U; [|cbn [d_buf d_flags]; reflexivity].
  rewrite nl_decode_eq. cbn [d_buf d_flags d_nl]. unfold nlc, raw_out, heldb, held, note. cbv zeta. cbn [nl_pending].
  rewrite (andb_comm (negb fin)). reflexivity.
Qed.

Definition sput (c : tconf) (fl : Z) : dcore :=
  if readuniversal c then ([], Z.shiftr fl 1, negb (Z.land fl 1 =? 0)) else ([], fl, false).
Definition sget (c : tconf) (s : dcore) : list Z * Z :=
  let '(b, f, pd) := s in (b, if readuniversal c then Z.lor (Z.shiftl f 1) (if pd then 1 else 0) else f).

Lemma getstate_core c d : dec_getstate c d = sget c (core c d).
Proof. unfold dec_getstate, sget, core. destruct (readuniversal c); reflexivity. Qed.
Lemma setstate_core c d fl : core c (dec_setstate c d ([], fl)) = sput c fl.
Proof. unfold dec_setstate, sput, core. destruct (readuniversal c); reflexivity. Qed.
Lemma init_core c : core c (dec_init c) = ([], cd_d0 (tc_codec c), false).
Proof. unfold core, dec_init. cbn. destruct (readuniversal c); reflexivity. Qed.

Definition core_ok (c : tconf) (s : dcore) : Prop :=
  let '(b, f, pd) := s in 0 <= f < 2 ^ 62 /\ (readuniversal c = false -> pd = false).

Lemma lor_bit f (pd : bool) : 0 <= f -> Z.lor (Z.shiftl f 1) (if pd then 1 else 0) = 2 * f + (if pd then 1 else 0).
Proof.
  intros H. rewrite Z.shiftl_mul_pow2 by lia. change (2 ^ 1) with 2. rewrite (Z.mul_comm f 2). destruct pd.
  - destruct f; try reflexivity; lia.
  - rewrite Z.lor_0_r. lia.
Qed.
Lemma land_1 z : Z.land z 1 = z mod 2.
Proof. change 1 with (Z.ones 1). rewrite Z.land_ones by lia. reflexivity. Qed.
Lemma sput_sget c f pd : core_ok c ([], f, pd) -> sput c (snd (sget c ([], f, pd))) = ([], f, pd).
Proof.
  intros [H H']. unfold sput, sget. cbn [snd]. destruct (readuniversal c); [|now rewrite H'].
  rewrite lor_bit by lia. rewrite Z.shiftr_div_pow2 by lia. change (2 ^ 1) with 2.
  replace ((2 * f + (if pd then 1 else 0)) / 2) with f; [|destruct pd; [apply Z.div_unique with 1; lia|apply Z.div_unique with 0; lia]].
  rewrite land_1.
  replace ((2 * f + (if pd then 1 else 0)) mod 2) with (if pd then 1 else 0);
    [|destruct pd; [apply Z.mod_unique with f; lia|apply Z.mod_unique with f; lia]].
  destruct pd; reflexivity.
Qed.
Lemma sget_range c s : core_ok c s -> 0 <= snd (sget c s) < 2 ^ 63.
Proof.
  destruct s as [[b f] pd]. intros [H _]. unfold sget. cbn [snd]. change (2 ^ 63) with (2 * 2 ^ 62).
  destruct (readuniversal c); [|lia]. rewrite lor_bit by lia. destruct pd; lia.
Qed.
Lemma sput_ok c fl : 0 <= fl < 2 ^ 62 -> core_ok c (sput c fl).
Proof.
  intros H. unfold sput. destruct (readuniversal c) eqn:U; unfold core_ok; [|split; [assumption|reflexivity]].
  split; [|rewrite U; discriminate]. rewrite Z.shiftr_div_pow2 by lia. change (2 ^ 1) with 2.
  split; [apply Z.div_pos; lia|]. apply Z.div_lt_upper_bound; lia.
Qed.

(** ** Newlines and cutting *)
Lemma ends_cr_app2 a b : b <> [] -> ends_cr (a ++ b) = ends_cr b.
Proof.
  intros H. destruct (exists_last H) as [v [w ->]]. now rewrite app_assoc, !ends_cr_app.
Qed.

Lemma nlc_app tr fin pd a b :
  let '(o1, pd1) := nlc tr false pd a in
  let '(o2, pd2) := nlc tr fin pd1 b in
  nlc tr fin pd (a ++ b) = (o1 ++ o2, pd2) /\ (tr = false -> clean_cut o1 o2).
Proof.
  unfold nlc. cbn [negb]. rewrite andb_true_r.
  set (x := heldb pd ++ a). replace (heldb pd ++ a ++ b) with (x ++ b) by (unfold x; now rewrite app_assoc). clearbody x. cbv zeta.
  destruct (ends_cr x) eqn:E.
  - pose proof (ends_cr_true _ E) as Ex. set (y := removelast x) in *. clearbody y. cbn [heldb].
    assert (N : [CR] ++ b <> []) by discriminate.
    assert (X : ends_cr (x ++ b) = ends_cr ([CR] ++ b)).
    { rewrite Ex, <- app_assoc. now apply ends_cr_app2. }
    rewrite X. assert (Y : x ++ b = y ++ ([CR] ++ b)) by (rewrite Ex, <- app_assoc; reflexivity).
    assert (Z1 : forall cut : bool, (if cut then removelast (x ++ b) else x ++ b) = y ++ (if cut then removelast ([CR] ++ b) else [CR] ++ b)).
    { intros []; rewrite Y; [now rewrite removelast_app|reflexivity]. }
    rewrite Z1. assert (Cl : clean_cut y (if ends_cr ([CR] ++ b) && negb fin then removelast ([CR] ++ b) else [CR] ++ b)).
    { intros _ t H. destruct (ends_cr ([CR] ++ b) && negb fin); [|discriminate H].
      destruct b as [|z b]; [discriminate H|]. discriminate H. }
    split.
    + f_equal. unfold emit. destruct tr; [now apply univ_app|reflexivity].
    + intros ->. unfold emit. exact Cl.
  - cbn [heldb app]. destruct b as [|z b].
    + rewrite app_nil_r, E. cbn [ends_cr andb]. unfold emit. destruct tr; rewrite ?app_nil_r; (split; [reflexivity|]); [discriminate|].
      intros _ H. rewrite E in H. discriminate H.
    + assert (N : z :: b <> []) by discriminate. rewrite (ends_cr_app2 x _ N).
      assert (Z1 : forall cut : bool, (if cut then removelast (x ++ z :: b) else x ++ z :: b) = x ++ (if cut then removelast (z :: b) else z :: b)).
      { intros []; [now rewrite removelast_app|reflexivity]. }
      rewrite Z1. assert (Cl : forall u, clean_cut x u) by (intros u H; rewrite E in H; discriminate H).
      split.
      * f_equal. unfold emit. destruct tr; [now apply univ_app|reflexivity].
      * intros ->. apply Cl.
Qed.

Section Good.
  Variable c : tconf.
  Hypothesis G : good_codec (tc_codec c).

  Lemma dstep_app s x y fin o1 s1 : dstep c s x false = Some (o1, s1) ->
    match dstep c s1 y fin with
    | None => dstep c s (x ++ y) fin = None
    | Some (o2, s2) => dstep c s (x ++ y) fin = Some (o1 ++ o2, s2)
         /\ (readuniversal c = true -> readtranslate c = false -> clean_cut o1 o2)
    end.
  Proof.
    destruct s as [[b f] pd]. unfold dstep at 1. rewrite (gc_buf _ G).
    destruct (cd_decode (tc_codec c) ([], f) (b ++ x) false) as [[raw [b1 f1]]|] eqn:E1; [|discriminate].
    intros H. pose proof (gc_app _ G _ _ y fin _ _ E1) as A. rewrite <- app_assoc in A.
    unfold dstep. rewrite (gc_buf _ G b f (x ++ y)), A.
    destruct (readuniversal c) eqn:U.
    - destruct (nlc (readtranslate c) false pd raw) as [o pd1] eqn:N1. injection H as <- <-.
      destruct (cd_decode (tc_codec c) (b1, f1) y fin) as [[raw2 [b2 f2]]|] eqn:E2; [|reflexivity].
      pose proof (nlc_app (readtranslate c) fin pd raw raw2) as B. rewrite N1 in B.
      destruct (nlc (readtranslate c) fin pd1 raw2) as [o2 pd2]. destruct B as [B1 B2]. rewrite B1. split; [reflexivity|]. intros _. exact B2.
    - injection H as <- <-. destruct (cd_decode (tc_codec c) (b1, f1) y fin) as [[raw2 [b2 f2]]|]; [|reflexivity].
      split; [reflexivity|discriminate].
  Qed.

  Lemma dstep_error s x y fin : dstep c s x false = None -> dstep c s (x ++ y) fin = None.
  Proof.
    destruct s as [[b f] pd]. unfold dstep. rewrite !(gc_buf _ G b f).
    destruct (cd_decode (tc_codec c) ([], f) (b ++ x) false) as [[raw [b1 f1]]|] eqn:E1.
    - destruct (readuniversal c); [destruct (nlc _ _ _ _)|]; discriminate.
    - intros _. rewrite app_assoc. now rewrite (gc_error _ G _ _ y fin E1).
  Qed.

  Lemma dstep_prefix s x y fin r : dstep c s (x ++ y) fin = Some r -> exists o s1, dstep c s x false = Some (o, s1).
  Proof.
    intros H. destruct (dstep c s x false) as [[o s1]|] eqn:E; [eauto|]. rewrite (dstep_error _ _ y fin E) in H. discriminate.
  Qed.

  Lemma dstep_ok s x fin o s1 : core_ok c s -> dstep c s x fin = Some (o, s1) -> core_ok c s1.
  Proof.
    destruct s as [[b f] pd]. unfold dstep. rewrite (gc_buf _ G).
    destruct (cd_decode (tc_codec c) ([], f) (b ++ x) fin) as [[raw [b1 f1]]|] eqn:E1; [|discriminate].
    intros [H H'] E. pose proof (gc_flags _ G _ _ _ _ _ _ H E1) as F. destruct (readuniversal c) eqn:U.
    - destruct (nlc _ _ _ _) as [o2 pd2]. injection E as <- <-. cbn. split; [exact F|congruence].
    - injection E as <- <-. cbn. auto.
  Qed.

  Lemma dstep_final s x o b f pd : dstep c s x true = Some (o, (b, f, pd)) -> b = [] /\ pd = false.
  Proof.
    destruct s as [[b0 f0] pd0]. unfold dstep. rewrite (gc_buf _ G).
    destruct (cd_decode (tc_codec c) ([], f0) (b0 ++ x) true) as [[raw [b1 f1]]|] eqn:E1; [|discriminate].
    pose proof (gc_end _ G _ _ _ _ _ E1) as ->. destruct (readuniversal c).
    - unfold nlc. cbv zeta. rewrite andb_false_r. intros H. injection H as _ <- _ <-. auto.
    - intros H. injection H as _ <- _ <-. auto.
  Qed.

  Lemma dstep_end f : dstep c ([], f, false) [] true = Some ([], ([], f, false)).
  Proof.
    unfold dstep. rewrite (gc_nil_final _ G). destruct (readuniversal c); [|reflexivity]. unfold nlc. cbn. unfold emit. destruct (readtranslate c); reflexivity.
  Qed.
  Lemma dstep_nil fl : dstep c (sput c fl) [] false = Some ([], sput c fl).
  Proof.
    unfold sput, dstep. destruct (readuniversal c).
    - rewrite (gc_nil _ G). unfold nlc, heldb. destruct (negb (Z.land fl 1 =? 0)); cbn; unfold emit; destruct (readtranslate c); reflexivity.
    - rewrite (gc_nil _ G). reflexivity.
  Qed.

  Lemma dstep_keep s x o b f pd : dstep c s x false = Some (o, (b, f, pd)) -> exists a, fst (fst s) ++ x = a ++ b.
  Proof.
    destruct s as [[b0 f0] pd0]. unfold dstep. rewrite (gc_buf _ G).
    destruct (cd_decode (tc_codec c) ([], f0) (b0 ++ x) false) as [[raw [b1 f1]]|] eqn:E1; [|discriminate].
    destruct (gc_keep _ G _ _ _ _ _ E1) as [a Ha]. destruct (readuniversal c).
    - destruct (nlc _ _ _ _). intros H. injection H as _ <- _ _. exists a. exact Ha.
    - intros H. injection H as _ <- _ _. exists a. exact Ha.
  Qed.

  (** Keeping bytes back is the same as going back before them. *)
  Lemma dstep_back b f pd x fin : dstep c (b, f, pd) x fin = dstep c ([], f, pd) (b ++ x) fin.
  Proof. unfold dstep. now rewrite (gc_buf _ G). Qed.

  Lemma length_removelast {A} (l : list A) : (length (removelast l) <= length l)%nat.
  Proof.
    induction l as [|x l IH]; [apply le_n|]. cbn [removelast]. destruct l; [apply Nat.le_0_l|]. cbn [length] in *. lia.
  Qed.
  Lemma univ_len l : (length (univ l) <= length l)%nat.
  Proof.
    induction l as [|x|x y t IH1 IH2] using list_pair_ind; [apply le_n| |].
    - cbn. destruct (x =? CR); cbn; lia.
    - destruct (Z.eq_dec x CR) as [->|N]; [destruct (Z.eq_dec y LF) as [->|N']|].
      + rewrite univ_crlf. cbn [length]. lia.
      + rewrite univ_cr; [cbn [length] in *; lia|]. intros u H. injection H as -> _. now apply N'.
      + rewrite univ_other by assumption. cbn [length] in *. lia.
  Qed.
  Lemma dstep_len s x fin o s1 : dstep c s x fin = Some (o, s1) -> len o <= 16 * (len (fst (fst s)) + len x) + 1.
  Proof.
    destruct s as [[b f] pd]. unfold dstep. rewrite (gc_buf _ G). cbn [fst].
    destruct (cd_decode (tc_codec c) ([], f) (b ++ x) fin) as [[raw [b1 f1]]|] eqn:E1; [|discriminate].
    pose proof (gc_len _ G _ _ _ _ _ E1) as L. unfold len in *. rewrite app_length in L. destruct (readuniversal c).
    - destruct (nlc _ _ _ _) as [o2 pd2] eqn:N. intros H. injection H as <- _. unfold nlc in N. cbv zeta in N. injection N as <- _.
      match goal with |- context [emit _ ?u] => set (y := u) end. assert (length y <= length (heldb pd ++ raw))%nat.
      { unfold y. destruct (_ && _); [apply length_removelast|apply le_n]. }
      assert (length (emit (readtranslate c) y) <= length y)%nat by (unfold emit; destruct (readtranslate c); [apply univ_len|apply le_n]).
      rewrite app_length in *. assert (length (heldb pd) <= 1)%nat by (destruct pd; cbn; lia). lia.
    - intros H. injection H as <- _. lia.
  Qed.

  (** What is still to come. *)
  Definition fut (s : dcore) (x : list Z) : option (list Z) :=
    match dstep c s x true with Some (o, _) => Some o | None => None end.

  Lemma fut_step s x y r : fut s (x ++ y) = Some r ->
    exists o s1 r1, dstep c s x false = Some (o, s1) /\ fut s1 y = Some r1 /\ r = o ++ r1
      /\ (readuniversal c = true -> readtranslate c = false -> clean_cut o r1).
  Proof.
    unfold fut. destruct (dstep c s (x ++ y) true) as [[o s2]|] eqn:E; [|discriminate]. intros H. injection H as <-.
    destruct (dstep_prefix _ _ _ _ _ E) as (o1 & s1 & E1). pose proof (dstep_app s x y true o1 s1 E1) as A.
    destruct (dstep c s1 y true) as [[o2 s3]|] eqn:E2; [|congruence]. destruct A as [A B].
    rewrite E in A. injection A as -> ->. exists o1, s1, o2. rewrite E2. auto.
  Qed.
  Lemma fut_app s x y o s1 : dstep c s x false = Some (o, s1) ->
    fut s (x ++ y) = match fut s1 y with Some r => Some (o ++ r) | None => None end.
  Proof.
    intros E. unfold fut. pose proof (dstep_app s x y true o s1 E) as A.
    destruct (dstep c s1 y true) as [[o2 s3]|]; [destruct A as [-> _]|rewrite A]; reflexivity.
  Qed.
  Lemma fut_end f : fut ([], f, false) [] = Some [].
  Proof. unfold fut. now rewrite dstep_end. Qed.
End Good.
