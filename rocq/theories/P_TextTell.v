(** tell() and seek(). *)
From Coq Require Import ZArith List Bool Lia.
From Verif Require Import M_Base M_Registry M_World M_Raw M_Buffered M_Newline M_Text S_Bytes S_Raw S_Buffered S_Newline S_Text
  P_Bytes P_Raw P_Buffered P_BufOps P_Newline P_Decode P_TextBase P_TextRead P_TextLine.
Import ListNotations.
Open Scope Z_scope.

(** * Cookies *)
Lemma lor_shift a b n : 0 <= n -> 0 <= a < 2 ^ n -> Z.lor a (Z.shiftl b n) = a + b * 2 ^ n.
Proof.
  intros Hn Ha. rewrite <- Z.shiftl_mul_pow2 by lia. rewrite <- Z.lxor_lor; [rewrite Z.add_nocarry_lxor; [reflexivity|]|].
  - apply Z.bits_inj'. intros i Hi. rewrite Z.land_spec, Z.bits_0. destruct (Z.lt_ge_cases i n) as [L|L].
    + rewrite Z.shiftl_spec_low by lia. apply andb_false_r.
    + rewrite (Z.testbit_eqb a i) by lia. rewrite Z.div_small; [reflexivity|]. split; [lia|]. apply Z.lt_le_trans with (2 ^ n); [lia|]. apply Z.pow_le_mono_r; lia.
  - apply Z.bits_inj'. intros i Hi. rewrite Z.land_spec, Z.bits_0. destruct (Z.lt_ge_cases i n) as [L|L].
    + rewrite Z.shiftl_spec_low by lia. apply andb_false_r.
    + rewrite (Z.testbit_eqb a i) by lia. rewrite Z.div_small; [reflexivity|]. split; [lia|]. apply Z.lt_le_trans with (2 ^ n); [lia|]. apply Z.pow_le_mono_r; lia.
Qed.

Definition field (z : Z) : Prop := 0 <= z < 2 ^ 64.
Definition fields (k : cookie) : Prop := field (ck_pos k) /\ field (ck_flags k) /\ field (ck_feed k) /\ field (ck_skip k).

Lemma pack_sum k : fields k ->
  pack_cookie k = ck_pos k + 2 ^ 64 * (ck_flags k + 2 ^ 64 * (ck_feed k + 2 ^ 64 * (ck_skip k + 2 ^ 64 * (if ck_eof k then 1 else 0)))).
Proof.
  destruct k as [a f d e s]. intros (Ha & Hf & Hd & Hs). unfold pack_cookie. cbn [ck_pos ck_flags ck_feed ck_skip ck_eof] in *. unfold field in *.
  change (2 ^ 256) with (2 ^ 64 * 2 ^ 64 * 2 ^ 64 * 2 ^ 64).
  assert (W : 2 ^ 64 = 18446744073709551616) by reflexivity.
  rewrite (lor_shift a f 64) by lia.
  rewrite (lor_shift (a + f * 2 ^ 64) d 128); [|lia|change (2 ^ 128) with (2 ^ 64 * 2 ^ 64); nia].
  rewrite (lor_shift _ s 192); [|lia|change (2 ^ 128) with (2 ^ 64 * 2 ^ 64); change (2 ^ 192) with (2 ^ 64 * 2 ^ 64 * 2 ^ 64); nia].
  rewrite (lor_shift _ (if e then 1 else 0) 256); [|lia|].
  - change (2 ^ 128) with (2 ^ 64 * 2 ^ 64). change (2 ^ 192) with (2 ^ 64 * 2 ^ 64 * 2 ^ 64). change (2 ^ 256) with (2 ^ 64 * 2 ^ 64 * 2 ^ 64 * 2 ^ 64). ring.
  - change (2 ^ 128) with (2 ^ 64 * 2 ^ 64). change (2 ^ 192) with (2 ^ 64 * 2 ^ 64 * 2 ^ 64). change (2 ^ 256) with (2 ^ 64 * 2 ^ 64 * 2 ^ 64 * 2 ^ 64). nia.
Qed.
Lemma unpack_pack k : fields k -> unpack_cookie (pack_cookie k) = k.
Proof.
  intros F. rewrite (pack_sum k F). destruct k as [a f d e s]. destruct F as (Ha & Hf & Hd & Hs). unfold unpack_cookie, field in *.
  cbn [ck_pos ck_flags ck_feed ck_skip ck_eof] in *. cbv zeta. assert (W : 0 < 2 ^ 64) by reflexivity. remember (2 ^ 64) as w eqn:Ew. clear Ew.
  assert (D : forall x y, 0 <= x < w -> (x + w * y) / w = y) by (intros; symmetry; apply Z.div_unique with x; lia).
  assert (M : forall x y, 0 <= x < w -> (x + w * y) mod w = x) by (intros x y Hx; symmetry; apply Z.mod_unique with y; lia).
  rewrite !D, !M by lia. destruct e; reflexivity.
Qed.
Lemma pack_nonneg k : fields k -> 0 <= pack_cookie k.
Proof.
  intros F. rewrite (pack_sum k F). destruct F as (Ha & Hf & Hd & Hs). unfold field in *. assert (0 < 2 ^ 64) by reflexivity. destruct (ck_eof k); nia.
Qed.
Lemma pack_zero k : fields k -> pack_cookie k = 0 -> ck_pos k = 0 /\ ck_flags k = 0 /\ ck_skip k = 0.
Proof.
  intros F H. pose proof (unpack_pack k F) as U. rewrite H in U. rewrite <- U. vm_compute. auto.
Qed.
Lemma pack_pos p : 0 <= p < 2 ^ 64 -> pack_cookie (mkCk p 0 0 false 0) = p.
Proof. intros H. rewrite pack_sum; [cbn; lia|]. repeat split; cbn; lia. Qed.

Section Tell.
  Variable c : tconf.
  Hypothesis G : good_codec (tc_codec c).
  Variable C : list Z.
  Hypothesis small : len C < 2 ^ 59.
  Variable guess : nat -> nat -> nat -> Z.
  (** int((a / b) * n) is at most a if n is at most b *)
  Hypothesis guess_le : forall a b n, (n <= b)%nat -> guess a b n <= Z.of_nat a.
  Notation trep := (trep c C).

  (** The number [n] is a position at which the text [rest] is left. *)
  Definition told (n : Z) (rest : list Z) : Prop := exists k, n = pack_cookie k /\ fields k /\ ck_pos k < maxpos /\ flags_ok c (ck_flags k) /\
    ((ck_skip k = 0 /\ fut c (sput c (ck_flags k)) (from (ck_pos k) C) = Some rest)
     \/ (0 < ck_skip k /\ exists x o s1 r1, len x = ck_feed k /\ seg C (ck_pos k) x (ck_pos k + ck_feed k)
          /\ dstep c (sput c (ck_flags k)) x (ck_eof k) = Some (o, s1) /\ ck_skip k <= len o
          /\ (ck_eof k = true -> from (ck_pos k + ck_feed k) C = [])
          /\ fut c s1 (from (ck_pos k + ck_feed k) C) = Some r1 /\ clean c o r1 /\ rest = skipn (Z.to_nat (ck_skip k)) o ++ r1)).

  Lemma flags_field fl : flags_ok c fl -> field fl.
  Proof. intros [H _]. unfold field. assert (2 ^ 63 < 2 ^ 64) by reflexivity. lia. Qed.
  Lemma pos_field p : 0 <= p < maxpos -> field p.
  Proof. unfold maxpos, field. assert (2 ^ 63 < 2 ^ 64) by reflexivity. lia. Qed.
  Lemma field_0 : field 0.
  Proof. split; [lia|reflexivity]. Qed.

  (** Joining what was decoded and what is to come. *)
  Lemma fut_join s x fin ch s1 r1 y : dstep c s x fin = Some (ch, s1) -> (fin = true -> y = []) -> fut c s1 y = Some r1 -> fut c s (x ++ y) = Some (ch ++ r1).
  Proof.
    intros D E F. destruct fin.
    - rewrite (E eq_refl) in *. rewrite (fut_final c G _ _ _ _ D) in F. injection F as <-. rewrite !app_nil_r. unfold fut. now rewrite D.
    - rewrite (fut_app c G _ _ _ _ _ D). now rewrite F.
  Qed.

  Lemma told_zero p0 fl x fin ch s p r1 : flags_ok c fl -> seg C p0 x p -> p < maxpos -> dstep c (sput c fl) x fin = Some (ch, s) ->
    (fin = true -> from p C = []) -> fut c s (from p C) = Some r1 -> told (pack_cookie (mkCk p0 fl 0 false 0)) (ch ++ r1).
  Proof.
    intros Fl Sg Hp D E F. destruct Sg as (H0 & -> & Sg). pose proof (len_nonneg x).
    eexists. split; [reflexivity|]. cbn [ck_pos ck_flags ck_feed ck_skip ck_eof]. split; [|split; [lia|split; [exact Fl|]]].
    - split; [apply pos_field; cbn [ck_pos]; lia|]. split; [exact (flags_field fl Fl)|]. split; exact field_0.
    - left. split; [reflexivity|]. rewrite Sg. eapply fut_join; eauto.
  Qed.

  Definition sat (s : dcore) : Prop := core_ok c s.

  (** A split of the input at a point where the decoder holds nothing. *)
  Lemma dstep_split s a b fin ch s2 o s1 : dstep c s (a ++ b) fin = Some (ch, s2) -> dstep c s a false = Some (o, s1) ->
    exists ch', ch = o ++ ch' /\ dstep c s1 b fin = Some (ch', s2).
  Proof.
    intros D E. pose proof (dstep_app c G s a b fin o s1 E) as A. destruct (dstep c s1 b fin) as [[o2 s3]|].
    - destruct A as [A _]. rewrite A in D. injection D as <- ->. eauto.
    - congruence.
  Qed.

  Lemma safe_point s : core_ok c s -> fst (fst s) = [] -> flags_ok c (snd (sget c s)) /\ sput c (snd (sget c s)) = s.
  Proof.
    destruct s as [[b f] pd]. cbn [fst]. intros O ->. pose proof (sput_sget c f pd O) as P. split; [split|exact P].
    - now apply sget_range.
    - now rewrite P.
  Qed.

  Lemma skip_loop_ok inp fl fin ch s : flags_ok c fl -> dstep c (sput c fl) inp fin = Some (ch, s) ->
    forall fuel skip back todo d, skip <= len inp -> (Z.to_nat skip < fuel)%nat -> 1 <= back ->
    exists skip' fl' todo' d' o, skip_loop fuel c inp fl skip back todo d = Ok (skip', fl', todo', d') /\ 0 <= skip' <= len inp
      /\ dstep c (sput c fl) (firstn (Z.to_nat skip') inp) false = Some (o, sput c fl') /\ core c d' = sput c fl' /\ flags_ok c fl'
      /\ (length o + todo' = todo)%nat.
  Proof.
    intros Fl D. induction fuel as [|fuel IH]; intros skip back todo d Hs Hf Hb; [lia|]. cbn [skip_loop]. pose proof (len_nonneg inp) as Ln.
    destruct (0 <? skip) eqn:Lt.
    - apply Z.ltb_lt in Lt. rewrite <- (firstn_skipn (Z.to_nat skip) inp) in D. destruct (dstep_prefix c G _ _ _ _ _ D) as (o & s1 & E).
      rewrite firstn_skipn in D. unfold dec_try. rewrite <- (setstate_core c d fl) in E. destruct (dec_decode_ok c _ _ _ _ _ E) as (d1 & E1 & Es). rewrite E1.
      rewrite setstate_core in E. destruct (length o <=? todo)%nat eqn:Lo.
      + apply Nat.leb_le in Lo. rewrite getstate_core, Es. assert (O1 : core_ok c s1) by (eapply dstep_ok; [exact G| |exact E]; apply Fl).
        destruct (sget c s1) as [b fl1] eqn:Eg. destruct b as [|y b].
        * destruct (safe_point s1 O1) as [F1 P1]; [destruct s1 as [[b0 f0] p0]; cbn in *; congruence|]. rewrite Eg in F1, P1. cbn [snd] in *.
          exists skip, fl1, (todo - length o)%nat, d1, o. split; [reflexivity|]. split; [lia|]. rewrite P1. split; [exact E|]. split; [exact Es|]. split; [exact F1|lia].
        * apply IH; try lia; cbn [length]; lia.
      + apply IH; lia.
    - exists 0, fl, todo, (dec_setstate c d ([], fl)), []. split; [reflexivity|]. split; [lia|]. cbn [Z.to_nat firstn length].
      split; [now apply dstep_nil|]. split; [apply setstate_core|]. split; [exact Fl|lia].
  Qed.

  Lemma feed_loop_ok p r1 fin s : p < maxpos -> (fin = true -> from p C = []) -> fut c s (from p C) = Some r1 ->
    forall rem start flags fed decoded todo d pre ch o,
    seg C start (pre ++ rem) p -> flags_ok c flags -> len pre = fed -> len (pre ++ rem) <= len C ->
    dstep c (sput c flags) pre false = Some (o, core c d) -> length o = decoded ->
    dstep c (sput c flags) (pre ++ rem) fin = Some (ch, s) -> (decoded < todo <= length ch)%nat ->
    exists k, feed_loop c rem start flags fed decoded todo d = Ok k /\ told (pack_cookie k) (skipn todo ch ++ r1).
  Proof.
    intros Hp Hfin Ft. induction rem as [|x rem IH]; intros start flags fed decoded todo d pre ch o Sg Fl Hfed Hlen E Hd D Ht; cbn [feed_loop].
    - rewrite app_nil_r in *. destruct fin.
      2:{ exfalso. rewrite E in D. injection D as -> _. lia. }
      rewrite <- (app_nil_r pre) in D. destruct (dstep_split _ _ _ _ _ _ _ _ D E) as (ch' & -> & E2). rewrite app_nil_r in D.
      unfold dec_try. destruct (dec_decode_ok c _ _ _ _ _ E2) as (d2 & E3 & _). rewrite E3. rewrite app_length in Ht.
      destruct (decoded + length ch' <? todo)%nat eqn:Lt; [apply Nat.ltb_lt in Lt; lia|].
      eexists. split; [reflexivity|]. pose proof (dstep_len c G _ _ _ _ _ D) as Ld. destruct Sg as (H0 & Hpp & Sg).
      pose proof (len_nonneg pre). rewrite (Hfin eq_refl) in Ft. pose proof (fut_final c G _ _ _ _ D) as Ff. rewrite Ff in Ft. injection Ft as <-.
      assert (B0 : len (fst (fst (sput c flags))) = 0) by (unfold sput; destruct (readuniversal c); reflexivity). rewrite B0 in Ld.
      assert (P64 : 2 ^ 64 = 32 * 2 ^ 59) by reflexivity.
      eexists. split; [reflexivity|]. cbn [ck_pos ck_flags ck_feed ck_skip ck_eof]. split; [|split; [lia|split; [exact Fl|]]].
      + split; [cbn; apply pos_field; lia|]. split; [apply (flags_field flags Fl)|]. unfold field, len in *. rewrite app_length in Ld. cbn [ck_feed ck_skip]. split; lia.
      + right. split; [lia|]. exists pre, (o ++ ch'), s, []. subst fed. split; [reflexivity|]. rewrite <- Hpp.
        split; [split; [lia|auto]|]. split; [exact D|]. split; [unfold len; rewrite app_length; lia|]. split; [intros _; now apply Hfin|].
        split; [now rewrite (Hfin eq_refl)|]. split; [apply clean_nil_r|]. rewrite Nat2Z.id. reflexivity.
    - assert (D' : dstep c (sput c flags) ((pre ++ [x]) ++ rem) fin = Some (ch, s)) by (rewrite <- app_assoc; exact D).
      destruct (dstep_prefix c G _ _ _ _ _ D') as (o1 & s1 & E1). destruct (dstep_split _ _ _ _ _ _ _ _ E1 E) as (o2 & -> & E2).
      unfold dec_try. destruct (dec_decode_ok c _ _ _ _ _ E2) as (d1 & E3 & Es). rewrite E3. cbv zeta. rewrite getstate_core, Es.
      assert (O1 : core_ok c s1) by (eapply dstep_ok; [exact G| |exact E1]; apply Fl).
      destruct (dstep_split _ _ _ _ _ _ _ _ D' E1) as (ch' & Ech & E4).
      assert (Sg' : seg C start ((pre ++ [x]) ++ rem) p) by (rewrite <- app_assoc; exact Sg).
      assert (Hfed' : len (pre ++ [x]) = fed + 1) by (rewrite len_app; cbn; lia).
      assert (Hlen' : len ((pre ++ [x]) ++ rem) <= len C) by (rewrite <- app_assoc; exact Hlen).
      set (dc := (decoded + length o2)%nat) in *. assert (Hdc : length (o ++ o2) = dc) by (rewrite app_length; unfold dc; lia).
      assert (Cookie : (todo <= dc)%nat -> told (pack_cookie (mkCk start flags (fed + 1) false (Z.of_nat todo))) (skipn todo ch ++ r1)).
      { intros Hle. destruct Sg' as (H0 & Hpp & Sg'). pose proof (seg_split _ _ _ _ _ (conj H0 (conj Hpp Sg'))) as [Sa Sb].
        pose proof (fut_join _ _ _ _ _ _ _ D' Hfin Ft) as J. rewrite <- app_assoc in J.
        destruct (fut_step c G _ _ _ _ J) as (o3 & s3 & r3 & F1 & F2 & F3 & F4). rewrite E1 in F1. injection F1 as <- <-.
        pose proof (dstep_len c G _ _ _ _ _ E1) as Ld.
        assert (B0 : len (fst (fst (sput c flags))) = 0) by (unfold sput; destruct (readuniversal c); reflexivity). rewrite B0 in Ld.
        assert (P64 : 2 ^ 64 = 32 * 2 ^ 59) by reflexivity. pose proof (len_nonneg rem). pose proof (len_nonneg pre). rewrite len_app in Hlen', Hpp.
        eexists. split; [reflexivity|]. cbn [ck_pos ck_flags ck_feed ck_skip ck_eof]. split; [|split; [lia|split; [exact Fl|]]].
        - split; [cbn; apply pos_field; lia|]. split; [apply (flags_field flags Fl)|]. unfold field. cbn [ck_feed ck_skip]. split; [lia|].
          unfold len in *. lia.
        - right. split; [lia|]. rewrite Hfed' in Sa, Sb. exists (pre ++ [x]), (o ++ o2), s1, r3. split; [exact Hfed'|]. split; [exact Sa|]. split; [exact E1|].
          split; [unfold len; lia|]. split; [discriminate|]. split; [destruct Sb as (_ & _ & ->); exact F2|]. split; [exact F4|].
          rewrite Nat2Z.id. rewrite Ech in F3. rewrite <- app_assoc in F3. apply app_inv_head in F3. rewrite <- F3, Ech.
          rewrite (skipn_app todo (o ++ o2)). replace (todo - length (o ++ o2))%nat with 0%nat by lia. cbn [skipn]. now rewrite <- app_assoc. }
      destruct (sget c s1) as [b fl1] eqn:Eg.
      assert (Go : exists k, (if (todo <=? dc)%nat then Ok (mkCk start flags (fed + 1) false (Z.of_nat todo))
                   else feed_loop c rem start flags (fed + 1) dc todo d1) = Ok k /\ told (pack_cookie k) (skipn todo ch ++ r1)).
      { destruct (todo <=? dc)%nat eqn:Lt; [apply Nat.leb_le in Lt; eauto|]. apply Nat.leb_gt in Lt.
        apply IH with (pre := pre ++ [x]) (o := o ++ o2); auto; [rewrite Es; exact E1|lia]. }
      destruct b as [|y b]; [|exact Go]. cbn [andb]. destruct (dc <=? todo)%nat eqn:Lt; [|exact Go]. clear Go Cookie. apply Nat.leb_le in Lt.
      destruct (safe_point s1 O1) as [F1 P1]; [destruct s1 as [[b0 f0] p0]; cbn in *; congruence|]. rewrite Eg in F1, P1. cbn [snd] in *.
      apply seg_split in Sg' as [_ Sg']. rewrite Hfed' in Sg'. rewrite <- P1 in E4.
      assert (Esk : skipn todo ch = skipn (todo - dc) ch').
      { rewrite Ech, skipn_app. rewrite skipn_all2 by lia. now rewrite Hdc. }
      rewrite Ech, app_length, Hdc in Ht.
      destruct (todo - dc <=? 0)%nat eqn:Lz.
      + apply Nat.leb_le in Lz. eexists. split; [reflexivity|]. rewrite Esk. replace (todo - dc)%nat with 0%nat by lia. cbn [skipn Z.of_nat].
        eapply told_zero; eauto.
      + apply Nat.leb_gt in Lz. rewrite Esk. apply IH with (pre := []) (o := []); auto.
        * rewrite len_app in Hlen'. cbn [app]. pose proof (len_nonneg (pre ++ [x])). lia.
        * rewrite Es, <- P1. now apply dstep_nil.
        * lia.
  Qed.

  Lemma flush_bst t p : bst (tc_kind c) (t_b t) C p ->
    exists b', t_flush c t = (Ok tt, set_telling (set_b t b') true) /\ bst (tc_kind c) b' C p.
  Proof.
    intros R. destruct (bst_flush _ _ _ _ R) as (b' & E & B). exists b'. unfold t_flush, bind, on_b, upd_t. rewrite E.
    unfold t_seekable. tcbn. rewrite (bst_seekable _ _ _ _ B). auto.
  Qed.

  Lemma flush_text t p r1 tel q : trep t p r1 tel q ->
    exists b', t_flush c t = (Ok tt, set_telling (set_b t b') true) /\ bst (tc_kind c) b' C p.
  Proof. intros R. exact (flush_bst t p (tr_b _ _ _ _ _ _ _ R)). Qed.

  Lemma t_tell_ok t p r1 q : trep t p r1 true q ->
    exists r t', t_tell guess c t = (r, t') /\ trep t' p r1 true q /\ left t' r1 = left t r1 /\
      ((exists n, r = Ok n /\ told n (left t r1)) \/ (q = true /\ r = Err EAssert)).
  Proof.
    intros R. unfold t_tell. unfold bind at 1, t_seekable at 1. rewrite (bst_seekable _ _ _ _ (tr_b _ _ _ _ _ _ _ R)), (tr_tel _ _ _ _ _ _ _ R). cbn [negb].
    destruct (flush_text _ _ _ _ _ R) as (b1 & E1 & B1). unfold bind at 1. rewrite E1.
    destruct (bst_tell _ _ _ _ B1) as (b2 & E2 & B2). unfold bind at 1, on_b. tcbn. rewrite E2. tcbn.
    pose proof (trep_b _ _ _ _ _ _ _ b2 R B2) as R2.
    assert (Et : set_b (set_telling (set_b t b1) true) b2 = set_b t b2).
    { destruct t. cbn in *. pose proof (tr_tel _ _ _ _ _ _ _ R) as T. cbn in T. now rewrite T. }
    unfold set_b in Et at 1 2. cbn [t_enc t_dec t_chars t_used t_snap t_telling t_ratio t_b set_telling] in Et.
    clear E1 B1 E2. pose proof (tr_snap _ _ _ _ _ _ _ R eq_refl) as Sn. pose proof (bst_pos _ _ _ _ B2) as Pp.
    pose proof (tr_pos _ _ _ _ _ _ _ R) as Pm. pose proof (tr_used _ _ _ _ _ _ _ R) as Us.
    assert (Fin : forall r, ((exists n, r = Ok n /\ told n (left t r1)) \/ (q = true /\ r = Err EAssert)) ->
              exists r' t', (r, set_b (set_telling (set_b t b1) true) b2) = (r', t') /\ trep t' p r1 true q /\ left t' r1 = left t r1 /\
              ((exists n, r' = Ok n /\ told n (left t r1)) \/ (q = true /\ r' = Err EAssert))).
    { intros r H. exists r, (set_b t b2). split; [f_equal; unfold set_b at 1; tcbn; exact Et|]. split; [exact R2|]. split; [reflexivity|exact H]. }
    assert (None_case : t_chars t = [] /\ fut c (sput c 0) (from p C) = Some r1 -> told p (left t r1)).
    { intros [Hc Hf]. unfold left. rewrite Hc. replace (skipn (t_used t) []) with (@nil Z) by (destruct (t_used t); reflexivity). cbn [app].
      exists (mkCk p 0 0 false 0). pose proof (pos_field p (conj Pp Pm)) as Hpf. split; [symmetry; now apply pack_pos|]. cbn [ck_pos ck_flags ck_skip].
      split; [split; [exact Hpf|split; [exact field_0|split; exact field_0]]|]. split; [exact Pm|].
      split; [|left; auto]. split; [split; [lia|reflexivity]|]. rewrite (sput_0 c). split; [split; [lia|reflexivity]|auto]. }
    unfold snap_ok in Sn. destruct (t_dec t) as [d|] eqn:Ed.
    2:{ destruct Sn as [Hc Hf]. rewrite Hc. apply Fin. left. exists p. split; [reflexivity|]. apply None_case. now rewrite Hc. }
    destruct (t_snap t) as [[fl inp]|] eqn:Es.
    2:{ destruct Sn as [Hc Hf]. rewrite Hc. apply Fin. left. exists p. split; [reflexivity|]. apply None_case. now rewrite Hc. }
    destruct Sn as (Fl & (p0 & Sg) & (fin & D & Hfin) & Hr).
    assert (Ep : p - Z.of_nat (length inp) = p0) by (destruct Sg as (_ & -> & _); unfold len; lia). rewrite Ep. clear Ep.
    pose proof (tr_fut _ _ _ _ _ _ _ R) as Ft. unfold t_decoder in Ft. rewrite Ed in Ft.
    cbv zeta. destruct (t_used t =? 0)%nat eqn:U0.
    { apply Nat.eqb_eq in U0. apply Fin. left. eexists. split; [reflexivity|]. unfold left. rewrite U0. cbn [skipn]. eapply told_zero; eauto. }
    apply Nat.eqb_neq in U0. destruct (guess _ _ _ <=? Z.of_nat (length inp)) eqn:Gs; cbn [negb].
    2:{ apply Fin. right. split; [|reflexivity]. destruct q; [reflexivity|]. exfalso. apply Z.leb_gt in Gs.
        destruct Hr as [H1 H2]; [reflexivity|intros Hc; rewrite Hc in Us; cbn in Us; lia|].
        pose proof (guess_le (fst (t_ratio t)) (snd (t_ratio t)) (t_used t)). lia. }
    apply Z.leb_le in Gs.
    match goal with |- context [skip_loop (S (Z.to_nat ?g)) _ _ _ _ _ _ _] => set (g0 := g) in * end.
    destruct (skip_loop_ok inp fl fin (t_chars t) (core c d) Fl D (S (Z.to_nat g0)) g0 1 (t_used t) d) as (sk & fl' & todo' & d' & o & E3 & Hsk & E4 & Ec & Fl' & Hto); [exact Gs|lia|lia|].
    rewrite E3. clear E3. rewrite <- (firstn_skipn (Z.to_nat sk) inp) in D, Sg.
    destruct (dstep_split _ _ _ _ _ _ _ _ D E4) as (ch' & Ech & E5). apply seg_split in Sg as [_ Sg].
    assert (Hl : len (firstn (Z.to_nat sk) inp) = sk) by (rewrite len_firstn; unfold len in *; lia). rewrite Hl in Sg.
    assert (Esk : skipn (t_used t) (t_chars t) = skipn todo' ch').
    { rewrite Ech, skipn_app. rewrite skipn_all2 by lia. cbn [app]. f_equal. lia. }
    destruct (todo' =? 0)%nat eqn:T0.
    - apply Nat.eqb_eq in T0. apply Fin. left. eexists. split; [reflexivity|]. unfold left. rewrite Esk, T0. cbn [skipn]. eapply told_zero; eauto.
    - apply Nat.eqb_neq in T0.
      destruct (feed_loop_ok p r1 fin (core c d) Pm Hfin Ft (skipn (Z.to_nat sk) inp) (p0 + sk) fl' 0 0%nat todo' d' [] ch' []) as (k & E6 & Tk); auto.
      + cbn [app]. pose proof (seg_slice _ _ _ _ Sg) as M. destruct Sg as (Hge & _). pose proof (len_nonneg C). lia.
      + rewrite Ec. now apply dstep_nil.
      + rewrite Ech, app_length in Us. split; [lia|]. lia.
      + rewrite E6. apply Fin. left. eexists. split; [reflexivity|]. unfold left. rewrite Esk. exact Tk.
  Qed.

  Lemma t_tell_off t p r1 q : trep t p r1 false q -> t_tell guess c t = (Err (EOS 0), t).
  Proof.
    intros R. unfold t_tell. unfold bind at 1, t_seekable at 1. rewrite (bst_seekable _ _ _ _ (tr_b _ _ _ _ _ _ _ R)), (tr_tel _ _ _ _ _ _ _ R). reflexivity.
  Qed.

  Lemma reset_encoder_ok n t p r1 tel q : trep t p r1 tel q -> exists t', reset_encoder c n t = (Ok tt, t') /\ trep t' p r1 tel q /\ left t' r1 = left t r1.
  Proof.
    intros [B P U O K D F Cl T S]. eexists. split; [reflexivity|]. split; [|reflexivity]. unfold t_decoder in *. split; unfold t_decoder; tcbn; auto.
  Qed.

  (** seek() makes up for whatever happened to the text part of the stream. *)
  Lemma t_seek_to_bst n rest t p : bst (tc_kind c) (t_b t) C p -> told n rest ->
    exists t' p' r1', t_seek_to c n t = (Ok n, t') /\ trep t' p' r1' true true /\ left t' r1' = rest.
  Proof.
    intros R (k & -> & Fk & Pk & Fl & Tk). unfold t_seek_to. pose proof (pack_nonneg k Fk) as Nn.
    unfold bind at 1. destruct (pack_cookie k <? 0) eqn:Lt; [apply Z.ltb_lt in Lt; lia|]. unfold ret at 1.
    destruct (flush_bst _ _ R) as (b1 & E1 & B1). unfold bind at 1. rewrite E1.
    rewrite (unpack_pack k Fk). cbv zeta. pose proof Fk as (Fp & Ff & Fd & Fs).
    destruct (bst_seek _ _ _ _ (ck_pos k) B1) as (b2 & E2 & B2); [apply Fp|]. unfold bind at 1, on_b at 1. tcbn. rewrite E2. tcbn.
    unfold bind at 1, upd_t at 1. tcbn. unfold bind at 1, upd_t at 1. tcbn.
    match goal with |- context [match t_dec t with Some _ => _ | None => _ end] => set (t2 := match t_dec t with Some _ => _ | None => _ end) end.
    (* the state before bytes are skipped *)
    assert (Q : t_b t2 = b2 /\ t_chars t2 = [] /\ t_used t2 = 0%nat /\ t_telling t2 = true /\ core c (t_decoder c t2) = sput c (ck_flags k)
      /\ (t_dec t2 = None -> t_snap t2 = None) /\ (t_snap t2 = None -> ck_flags k = 0)
      /\ (forall sn, t_snap t2 = Some sn -> sn = (ck_flags k, [])) /\ (0 < ck_skip k -> t_dec t2 <> None)).
    { unfold t2, t_decoder. destruct (t_dec t) as [d|] eqn:Ed.
      - destruct (pack_cookie k =? 0) eqn:Z0.
        + apply Z.eqb_eq in Z0. destruct (pack_zero k Fk Z0) as (Zp & Zf & Zs). tcbn. rewrite Zf, Zs. repeat (split; [reflexivity|]).
          split; [unfold dec_reset; now apply core_init|]. split; [discriminate|]. split; [auto|]. split; [discriminate|lia].
        + tcbn. repeat (split; [reflexivity|]). split; [apply setstate_core|]. split; [discriminate|]. split; [discriminate|]. split; [intros sn H; congruence|discriminate].
      - destruct (negb (ck_flags k =? 0) || negb (ck_skip k =? 0)) eqn:Z0.
        + tcbn. repeat (split; [reflexivity|]). split; [apply setstate_core|]. split; [discriminate|]. split; [discriminate|]. split; [intros sn H; congruence|discriminate].
        + apply orb_false_iff in Z0 as [Z1 Z2]. apply negb_false_iff, Z.eqb_eq in Z1, Z2. tcbn. rewrite Ed, Z1, Z2. repeat (split; [reflexivity|]).
          split; [now apply core_init|]. split; [auto|]. split; [auto|]. split; [discriminate|lia]. }
    destruct Q as (Qb & Qc & Qu & Qt & Qd & Qn & Qs & Qf & Qk). clearbody t2. destruct Fp as [Fp0 Fp1].
    assert (O2 : core_ok c (core c (t_decoder c t2))) by (rewrite Qd; apply Fl).
    assert (Bf : d_buf (t_decoder c t2) = []).
    { assert (X : fst (fst (core c (t_decoder c t2))) = []) by (rewrite Qd; unfold sput; destruct (readuniversal c); reflexivity). exact X. }
    destruct Tk as [[Z0 Hf]|(Zs & x & o & s1 & r2 & Hx & Sg & D & Hle & Heof & Hf & Cl & ->)].
    - rewrite Z0. cbn [Z.eqb]. unfold bind at 1, ret at 1.
      assert (R2 : trep t2 (ck_pos k) rest true true).
      { split; auto; try lia.
        - rewrite Qb. exact B2.
        - rewrite Bf. exists (ck_pos k). now apply seg_nil.
        - rewrite Qd. exact Hf.
        - rewrite Qc. apply clean_nil_l.
        - intros _. unfold snap_ok. unfold t_decoder in Qd. destruct (t_dec t2) as [d|] eqn:Ed.
          + destruct (t_snap t2) as [[fl inp]|] eqn:Es.
            * specialize (Qf _ eq_refl). injection Qf as -> ->. split; [exact Fl|]. split; [exists (ck_pos k); now apply seg_nil|].
              split; [exists false; rewrite Qc, Qd; split; [now apply dstep_nil|discriminate]|discriminate].
            * rewrite (Qs eq_refl) in Hf. auto.
          + rewrite (Qs (Qn eq_refl)) in Hf. auto. }
      destruct (reset_encoder_ok (pack_cookie k) _ _ _ _ _ R2) as (t3 & E3 & R3 & L3). unfold bind at 1. rewrite E3. unfold ret.
      exists t3, (ck_pos k), rest. split; [reflexivity|]. split; [exact R3|]. rewrite L3. unfold left. rewrite Qc, Qu. reflexivity.
    - destruct (Z.eqb_spec (ck_skip k) 0) as [Z0|_]; [lia|]. rewrite <- Qb in B2.
      destruct (bst_read_n _ _ _ _ _ _ B2 Sg) as (b3 & E3 & B3). rewrite Hx in E3.
      unfold bind at 1. unfold bind at 1. unfold on_b. rewrite E3. cbv beta iota.
      destruct (t_dec t2) as [d2|] eqn:Ed2; [|exfalso; now apply Qk]. unfold t_decoder in *. rewrite Ed2 in *.
      rewrite <- Qd in D. destruct (dec_decode_ok c _ _ _ _ _ D) as (d3 & E4 & Es). unfold bind at 1, t_decode, t_decoder. tcbn. rewrite Ed2, E4. tcbn.
      unfold bind at 1, upd_t at 1. tcbn. assert (Lo : (Z.of_nat (length o) <? ck_skip k) = false) by (apply Z.ltb_ge; exact Hle).
      rewrite Lo. unfold upd_t. tcbn. rewrite Qd in D.
      match goal with |- context [bind (reset_encoder c _) _ ?u] => set (t4 := u) end.
      assert (Lx : 0 <= len x) by apply len_nonneg.
      assert (R4 : trep t4 (ck_pos k + ck_feed k) r2 true true).
      { unfold t4. split; unfold t_decoder; tcbn; auto.
        - destruct x as [|y x]; [cbn in Hx; lia|]. pose proof (seg_slice _ _ _ _ Sg) as M. unfold len in *. cbn [length] in *. unfold maxpos.
          assert (2 ^ 59 < 2 ^ 63) by reflexivity. lia.
        - unfold len in Hle. lia.
        - rewrite Es. eapply dstep_ok; [exact G| |exact D]. apply Fl.
        - destruct s1 as [[bb f1] pd1]. assert (Hd : d_buf d3 = bb) by (injection Es; auto). rewrite Hd. destruct (ck_eof k) eqn:Ee.
          + destruct (dstep_final c G _ _ _ _ _ _ D) as [-> _]. exists (ck_pos k + ck_feed k). apply seg_nil. lia.
          + destruct (dstep_keep c G _ _ _ _ _ _ D) as [a Ha]. assert (X : fst (fst (sput c (ck_flags k))) = []) by (unfold sput; destruct (readuniversal c); reflexivity).
            rewrite X in Ha. cbn [app] in Ha. rewrite Ha in Sg. exists (ck_pos k + len a). now apply seg_split in Sg as [_ Sg].
        - discriminate.
        - rewrite Es. exact Hf.
        - intros _. unfold snap_ok. tcbn. split; [exact Fl|]. split; [eauto|]. split; [|discriminate].
          exists (ck_eof k). rewrite Es. auto. }
      destruct (reset_encoder_ok (pack_cookie k) _ _ _ _ _ R4) as (t5 & E5 & R5 & L5). unfold bind at 1. rewrite E5. unfold ret.
      exists t5, (ck_pos k + ck_feed k), r2. split; [reflexivity|]. split; [exact R5|]. rewrite L5. reflexivity.
  Qed.

  Lemma t_seek_to_ok n rest t p r1 tel q : trep t p r1 tel q -> told n rest ->
    exists t' p' r1', t_seek_to c n t = (Ok n, t') /\ trep t' p' r1' true true /\ left t' r1' = rest.
  Proof. intros R. exact (t_seek_to_bst n rest t p (tr_b _ _ _ _ _ _ _ R)). Qed.

  Lemma t_seek_bst n rest t p : bst (tc_kind c) (t_b t) C p -> told n rest ->
    exists t' p' r1', t_seek guess c n 0 t = (Ok n, t') /\ trep t' p' r1' true true /\ left t' r1' = rest.
  Proof.
    intros R H. unfold t_seek. unfold bind at 1, t_check_closed at 1. rewrite (bst_open _ _ _ _ R).
    unfold bind at 1, t_seekable at 1. rewrite (bst_seekable _ _ _ _ R). cbn [negb Z.eqb].
    eapply t_seek_to_bst; eauto.
  Qed.

  Lemma t_seek_ok n rest t p r1 tel q : trep t p r1 tel q -> told n rest ->
    exists t' p' r1', t_seek guess c n 0 t = (Ok n, t') /\ trep t' p' r1' true true /\ left t' r1' = rest.
  Proof. intros R. exact (t_seek_bst n rest t p (tr_b _ _ _ _ _ _ _ R)). Qed.

  Lemma t_seek_end_bst t p : bst (tc_kind c) (t_b t) C p ->
    exists n t' p', t_seek guess c 0 2 t = (Ok n, t') /\ trep t' p' [] true true /\ left t' [] = [] /\ told n [].
  Proof.
    intros R. unfold t_seek. unfold bind at 1, t_check_closed at 1. rewrite (bst_open _ _ _ _ R).
    unfold bind at 1, t_seekable at 1. rewrite (bst_seekable _ _ _ _ R). change (2 =? 1) with false. change (2 =? 2) with true. change (0 =? 0) with true. cbn [negb].
    destruct (flush_bst _ _ R) as (b1 & E1 & B1). unfold bind at 1. rewrite E1.
    destruct (bst_seek_end _ _ _ _ B1) as (b2 & E2 & B2). unfold bind at 1, on_b at 1. tcbn. rewrite E2. tcbn.
    unfold bind at 1, upd_t at 1. tcbn. unfold bind at 1, upd_t at 1. tcbn.
    match goal with |- context [match t_dec t with Some _ => _ | None => _ end] => set (t2 := match t_dec t with Some _ => _ | None => _ end) end.
    assert (He : from (len C) C = []) by (apply from_end; lia).
    assert (F0 : fut c (sput c 0) [] = Some []) by (rewrite (sput_0 c); now apply fut_end).
    assert (O0 : core_ok c (sput c 0)) by (rewrite (sput_0 c); split; [split; [lia|reflexivity]|auto]).
    assert (Hm : len C < maxpos) by (unfold maxpos; assert (2 ^ 59 < 2 ^ 63) by reflexivity; lia). pose proof (len_nonneg C) as Lc.
    assert (Q : t_b t2 = b2 /\ t_chars t2 = [] /\ t_used t2 = 0%nat /\ t_telling t2 = true /\ t_decoder c t2 = dec_init c /\ t_snap t2 = None).
    { unfold t2, t_decoder. destruct (t_dec t) eqn:Ed; tcbn; rewrite ?Ed; auto 10. }
    destruct Q as (Qb & Qc & Qu & Qt & Qd & Qs).
    assert (R2 : trep t2 (len C) [] true true).
    { split; auto.
      - now rewrite Qb.
      - rewrite Qu, Qc. apply le_n.
      - rewrite Qd. rewrite (core_init c G). exact O0.
      - rewrite Qd. exists (len C). now apply seg_nil.
      - rewrite Qd, He, (core_init c G). exact F0.
      - rewrite Qc. apply clean_nil_l.
      - intros _. unfold snap_ok. rewrite Qs, He. destruct (t_dec t2); auto. }
    clearbody t2. destruct (reset_encoder_ok (len C) _ _ _ _ _ R2) as (t3 & E3 & R3 & L3). unfold bind at 1. rewrite E3. unfold ret.
    assert (Lf : left t3 [] = []) by (rewrite L3; unfold left; now rewrite Qc, Qu).
    exists (len C), t3, (len C). split; [reflexivity|]. split; [exact R3|]. split; [exact Lf|].
    exists (mkCk (len C) 0 0 false 0). split; [symmetry; apply pack_pos; apply pos_field; lia|]. cbn [ck_pos ck_flags ck_feed ck_skip].
    split; [split; [apply pos_field; cbn [ck_pos]; lia|split; [exact field_0|split; exact field_0]]|].
    split; [exact Hm|]. split; [split; [split; [lia|reflexivity]|exact O0]|]. left. rewrite He. auto.
  Qed.
  Lemma t_seek_end_ok t p r1 tel q : trep t p r1 tel q ->
    exists n t' p', t_seek guess c 0 2 t = (Ok n, t') /\ trep t' p' [] true true /\ left t' [] = [] /\ told n [].
  Proof. intros R. exact (t_seek_end_bst t p (tr_b _ _ _ _ _ _ _ R)). Qed.
End Tell.
