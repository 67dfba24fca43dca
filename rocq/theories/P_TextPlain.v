(** Text streams with plain encodings: tell() gives byte positions, and always does. *)
From Coq Require Import ZArith List Bool Lia.
From Verif Require Import M_Base M_Registry M_World M_Raw M_Buffered M_Newline M_Text S_Bytes S_Raw S_Buffered S_Newline S_Text S_Plain
  P_Bytes P_Raw P_Buffered P_BufOps P_Newline P_Decode P_TextBase P_TextRead P_TextLine P_TextTell.
Import ListNotations.
Open Scope Z_scope.

Lemma univ_nocr s : ~ In CR s -> univ s = s.
Proof.
  induction s as [|x s IH]; [reflexivity|]. intros H. rewrite univ_other; [rewrite IH; [reflexivity|]|].
  - intros X. apply H. now right.
  - intros ->. apply H. now left.
Qed.
Lemma ends_nocr s : ~ In CR s -> ends_cr s = false.
Proof.
  intros H. destruct (ends_cr s) eqn:E; [|reflexivity]. exfalso. apply H. rewrite (ends_cr_true _ E). apply in_or_app. right. now left.
Qed.

Section Plain.
  Variable c : tconf.
  Hypothesis G : good_codec (tc_codec c).
  Hypothesis PC : bytewise_codec (tc_codec c).
  Variable C : list Z.
  Hypothesis small : len C < 2 ^ 59.
  Hypothesis NC : readuniversal c = false \/ ~ In CR C.
  Variable guess : nat -> nat -> nat -> Z.
  Hypothesis guess_le : forall a b n, (n <= b)%nat -> guess a b n <= Z.of_nat a.
  Notation trep := (trep c C).

  Definition okb (x : list Z) : Prop := readuniversal c = false \/ ~ In CR x.
  Lemma okb_seg q x p : seg C q x p -> okb x.
  Proof.
    intros (_ & _ & E). destruct NC as [H|H]; [now left|right]. intros X. apply H. rewrite <- (firstn_skipn (Z.to_nat q) C). apply in_or_app. right.
    unfold from in E. rewrite E. apply in_or_app. now left.
  Qed.
  Lemma okb_l x y : okb (x ++ y) -> okb x.
  Proof. intros [H|H]; [now left|right]. intros X. apply H. apply in_or_app. now left. Qed.
  Lemma okb_r x y : okb (x ++ y) -> okb y.
  Proof. intros [H|H]; [now left|right]. intros X. apply H. apply in_or_app. now right. Qed.

  Lemma dstep_plain b x fin : okb (b ++ x) ->
    dstep c (b, 0, false) x fin = match cd_decode (tc_codec c) ([], 0) (b ++ x) fin with
      | Some (raw, (b', f')) => Some (raw, (b', 0, false)) | None => None end.
  Proof.
    intros H. unfold dstep. rewrite (gc_buf _ G). destruct (cd_decode (tc_codec c) ([], 0) (b ++ x) fin) as [[raw [b' f']]|] eqn:E; [|reflexivity].
    rewrite (pc_flags _ PC _ _ _ _ _ E). destruct (readuniversal c) eqn:U; [|reflexivity].
    destruct H as [H|H]; [congruence|]. assert (N : ~ In CR raw) by (intros X; apply H; eapply pc_cr; eauto).
    unfold nlc, heldb. cbn [app]. rewrite (ends_nocr _ N). cbn [andb]. unfold emit. rewrite (univ_nocr _ N). now destruct (readtranslate c).
  Qed.
  Lemma dstep_state b x fin o s : okb (b ++ x) -> dstep c (b, 0, false) x fin = Some (o, s) -> exists b', s = (b', 0, false).
  Proof.
    intros H. rewrite (dstep_plain _ _ _ H). destruct (cd_decode _ _ _ _) as [[raw [b' f']]|]; [|discriminate]. intros E. injection E as _ <-. eauto.
  Qed.
  Lemma sget_plain b : sget c (b, 0, false) = (b, 0).
  Proof. unfold sget. now destruct (readuniversal c). Qed.
  Lemma sput_plain fl b : flags_ok c fl -> sput c fl = (b, 0, false) -> fl = 0 /\ b = [].
  Proof.
    intros [H _] E. unfold sput in E. destruct (readuniversal c).
    - injection E as E1 E2 E3. split; [|auto]. rewrite land_1 in E3. apply negb_false_iff, Z.eqb_eq in E3.
      rewrite Z.shiftr_div_pow2 in E2 by lia. change (2 ^ 1) with 2 in E2. pose proof (Z.div_mod fl 2). lia.
    - injection E as E1 E2. auto.
  Qed.

  (** Nothing comes out of a decoder that is given nothing. *)
  Lemma idle pre b : okb pre -> dstep c ([], 0, false) pre false = Some ([], (b, 0, false)) ->
    cd_decode (tc_codec c) ([], 0) pre false = Some ([], (b, 0)) /\ cd_decode (tc_codec c) ([], 0) b false = Some ([], (b, 0)).
  Proof.
    intros H. rewrite (dstep_plain [] pre false H). cbn [app]. destruct (cd_decode _ _ pre false) as [[raw [b' f']]|] eqn:E; [|discriminate].
    intros X. injection X as -> ->. pose proof (pc_flags _ PC _ _ _ _ _ E) as F0. subst f'. split; [reflexivity|].
    pose proof (gc_app _ G 0 pre [] false _ _ E) as A. rewrite app_nil_r, E in A. rewrite (gc_buf _ G), app_nil_r in A.
    destruct (cd_decode _ ([], 0) b false) as [[o s]|]; [|discriminate]. cbn [app] in A. now injection A as <- <-.
  Qed.

  Lemma feed_plain : forall rem start fed todo d pre b k, okb (pre ++ rem) -> core c d = (b, 0, false) ->
    dstep c ([], 0, false) pre false = Some ([], (b, 0, false)) -> len pre = fed -> (0 < todo)%nat ->
    feed_loop c rem start 0 fed 0 todo d = Ok k -> exists pos, k = mkCk pos 0 0 false 0 /\ start <= pos <= start + len (pre ++ rem).
  Proof.
    induction rem as [|x rem IH]; intros start fed todo d pre b k Ok_ Cd D Lp Ht E; cbn [feed_loop] in E.
    - exfalso. rewrite app_nil_r in Ok_. destruct (idle _ _ Ok_ D) as [D1 D2]. unfold dec_try in E.
      pose proof (dec_decode_core c d [] true) as A. destruct (dec_decode c d [] true) as [[out d1]|]; [|discriminate].
      destruct (0 + length out <? todo)%nat eqn:Lt; [discriminate|]. apply Nat.ltb_ge in Lt.
      rewrite Cd in A. destruct (gc_keep _ G _ _ _ _ _ D1) as [a Ha].
      rewrite dstep_plain in A by (rewrite app_nil_r; subst pre; eapply okb_r; eauto). rewrite app_nil_r in A.
      destruct (cd_decode (tc_codec c) ([], 0) b true) as [[raw s]|] eqn:Ef; [|discriminate]. destruct (pc_final _ PC _ _ _ Ef) as [s' Es]. rewrite Es in D2.
      injection D2 as -> _. destruct s. injection A as <- _. cbn in Lt. lia.
    - assert (Ok1 : okb ((pre ++ [x]) ++ rem)) by (rewrite <- app_assoc; exact Ok_). pose proof (okb_l _ _ Ok1) as Ok2.
      pose proof (okb_l _ _ Ok2) as Okp. destruct (idle _ _ Okp D) as [D1 D2]. destruct (gc_keep _ G _ _ _ _ _ D1) as [a Ha].
      assert (Okb : okb (b ++ [x])) by (rewrite Ha, <- app_assoc in Ok2; eapply okb_r; eauto).
      unfold dec_try in E. pose proof (dec_decode_core c d [x] false) as A. destruct (dec_decode c d [x] false) as [[out d1]|]; [|discriminate].
      rewrite Cd in A. destruct (dstep_state _ _ _ _ _ Okb A) as [b1 E1]. rewrite E1 in A. rewrite getstate_core, E1, sget_plain in E.
      assert (One : out = [] \/ ((exists a, out = [a]) /\ b1 = [])).
      { rewrite (dstep_plain _ _ _ Okb) in A. rewrite <- (gc_buf _ G) in A. destruct (cd_decode _ (b, 0) [x] false) as [[raw [b2 f2]]|] eqn:Eo; [|discriminate].
        injection A as -> ->. eapply pc_one; eauto. }
      assert (Lx : len ((pre ++ [x]) ++ rem) = len (pre ++ x :: rem)) by (now rewrite <- app_assoc). rewrite !len_app in Lx. change (len [x]) with 1 in Lx. pose proof (len_nonneg rem) as Lr. pose proof (len_nonneg pre) as Lq.
      assert (N0 : dstep c ([], 0, false) [] false = Some ([], ([], 0, false))) by (rewrite <- (sput_0 c); now apply dstep_nil).
      destruct One as [->|[[y ->] ->]].
      + cbn [length] in E. rewrite Nat.add_0_r, Nat.sub_0_r in E. destruct b1 as [|z b1].
        * cbn [andb Nat.leb] in E. destruct (todo <=? 0)%nat eqn:T0; [apply Nat.leb_le in T0; lia|].
          destruct (IH (start + (fed + 1)) 0 todo d1 [] [] k) as (pos & -> & Hp); auto; [eapply okb_r; eauto|].
          exists pos. split; [reflexivity|]. cbn [app] in Hp. rewrite len_app. lia.
        * cbn [andb] in E. destruct (todo <=? 0)%nat eqn:T0; [apply Nat.leb_le in T0; lia|].
          destruct (IH start (fed + 1) todo d1 (pre ++ [x]) (z :: b1) k) as (pos & -> & Hp); auto; [|rewrite len_app; cbn; lia|].
          -- pose proof (dstep_app c G _ _ [x] false _ _ D) as B. rewrite A in B. destruct B as [B _]. exact B.
          -- exists pos. split; [reflexivity|]. rewrite !len_app in Hp. change (len [x]) with 1 in Hp. rewrite len_app. lia.
      + cbn [length andb] in E. cbn [plus] in E. destruct (1 <=? todo)%nat eqn:T1; [|apply Nat.leb_gt in T1; lia].
        destruct (todo - 1 <=? 0)%nat eqn:T0.
        * apply Nat.leb_le in T0. replace (todo - 1)%nat with 0%nat in E by lia. injection E as <-.
          eexists. split; [reflexivity|]. rewrite len_app. lia.
        * apply Nat.leb_gt in T0.
          destruct (IH (start + (fed + 1)) 0 (todo - 1)%nat d1 [] [] k) as (pos & -> & Hp); auto; [eapply okb_r; eauto|].
          exists pos. split; [reflexivity|]. cbn [app] in Hp. rewrite len_app. lia.
  Qed.

  (** * The invariant: no flags anywhere *)
  Definition pl (t : tstate) : Prop :=
    (exists b, core c (t_decoder c t) = (b, 0, false)) /\ (forall fl inp, t_snap t = Some (fl, inp) -> fl = 0).

  (** tell() *)
  Definition tell_value (t : tstate) (p : Z) : res Z :=
    match t_dec t, t_snap t with
    | Some d, Some (flags, input) =>
        let position := p - Z.of_nat (length input) in
        if (t_used t =? 0)%nat then Ok (pack_cookie (mkCk position flags 0 false 0))
        else
          let skip := guess (fst (t_ratio t)) (snd (t_ratio t)) (t_used t) in
          let r :=
            if negb (skip <=? Z.of_nat (length input)) then Err EAssert
            else match skip_loop (S (Z.to_nat skip)) c input flags skip 1 (t_used t) d with
                 | Err e => Err e
                 | Ok (skip, flags, todo, d1) =>
                     if (todo =? 0)%nat then Ok (mkCk (position + skip) flags 0 false 0)
                     else feed_loop c (skipn (Z.to_nat skip) input) (position + skip) flags 0 0 todo d1
                 end in
          match r with Ok k => Ok (pack_cookie k) | Err e => Err e end
    | _, _ => match t_chars t with [] => Ok p | _ => Err EAssert end
    end.
  Lemma tell_eq t p r1 q : trep t p r1 true q -> exists b', t_tell guess c t = (tell_value t p, set_b t b') /\ bst (tc_kind c) b' C p.
  Proof.
    intros R. unfold t_tell. unfold bind at 1, t_seekable at 1. rewrite (bst_seekable _ _ _ _ (tr_b _ _ _ _ _ _ _ R)), (tr_tel _ _ _ _ _ _ _ R). cbn [negb].
    destruct (flush_text _ _ _ _ _ _ _ R) as (b1 & E1 & B1). unfold bind at 1. rewrite E1.
    destruct (bst_tell _ _ _ _ B1) as (b2 & E2 & B2). unfold bind at 1, on_b. tcbn. rewrite E2. tcbn.
    exists b2. split; [|exact B2]. pose proof (tr_tel _ _ _ _ _ _ _ R) as T.
    assert (Et : set_b (set_telling (set_b t b1) true) b2 = set_b t b2) by (destruct t; cbn in T |- *; now rewrite T).
    unfold tell_value. destruct (t_dec t) as [d|] eqn:Ed.
    2:{ rewrite <- Et. now destruct (t_chars t). }
    destruct (t_snap t) as [[fl inp]|] eqn:Es.
    2:{ rewrite <- Et. now destruct (t_chars t). }
    cbv zeta. rewrite Et. destruct (t_used t =? 0)%nat; [reflexivity|].
    match goal with |- context [match ?m with Ok k => (Ok (pack_cookie k), _) | Err e => _ end] => now destruct m end.
  Qed.

  Lemma tell_plain t p r1 : trep t p r1 true false -> pl t ->
    exists n b', t_tell guess c t = (Ok n, set_b t b') /\ tell_value t p = Ok n /\ told c C n (left t r1) /\ 0 <= n < 2 ^ 63 /\ trep (set_b t b') p r1 true false.
  Proof.
    intros R [[b Cd] Sf]. destruct (tell_eq _ _ _ _ R) as (b' & E & B').
    destruct (t_tell_ok c G C small guess guess_le _ _ _ _ R) as (r & t' & E' & R' & L' & [(n & -> & Tn)|(X & _)]); [|discriminate X].
    rewrite E in E'. injection E' as Ev <-. exists n, b'. split; [rewrite <- Ev; exact E|]. split; [exact Ev|]. split; [exact Tn|]. split; [|exact R'].
    pose proof (bst_pos _ _ _ _ B') as Pp. pose proof (tr_pos _ _ _ _ _ _ _ R) as Pm.
    pose proof (tr_snap _ _ _ _ _ _ _ R eq_refl) as Sn. unfold maxpos in Pm. unfold tell_value in Ev. unfold snap_ok in Sn.
    assert (P64 : 2 ^ 63 < 2 ^ 64) by reflexivity.
    destruct (t_dec t) as [d|] eqn:Ed; [|destruct (t_chars t); [injection Ev as <-; lia|discriminate]].
    destruct (t_snap t) as [[fl inp]|] eqn:Es; [|destruct (t_chars t); [injection Ev as <-; lia|discriminate]].
    pose proof (Sf _ _ eq_refl) as ->. cbv zeta in Ev. destruct Sn as (Fl & (p0 & Sg) & (fin & D & Hfin) & _).
    assert (Ep : p - Z.of_nat (length inp) = p0) by (destruct Sg as (_ & -> & _); unfold len; lia). rewrite Ep in Ev.
    assert (P0 : 0 <= p0 <= p) by (destruct Sg as (? & -> & _); pose proof (len_nonneg inp); lia).
    destruct (t_used t =? 0)%nat; [rewrite pack_pos in Ev by lia; injection Ev as <-; lia|].
    destruct (guess _ _ _ <=? Z.of_nat (length inp)) eqn:Gs; cbn [negb] in Ev; [|discriminate]. apply Z.leb_le in Gs.
    match type of Ev with context [skip_loop (S (Z.to_nat ?g)) _ _ _ _ _ _ _] => set (g0 := g) in * end.
    destruct (skip_loop_ok c G inp 0 fin (t_chars t) (core c d) Fl D (S (Z.to_nat g0)) g0 1 (t_used t) d) as (sk & fl' & todo' & d' & o & E3 & Hsk & E4 & Ec & Fl' & Hto); [exact Gs|lia|lia|].
    rewrite E3 in Ev. pose proof (okb_seg _ _ _ Sg) as Oi.
    rewrite <- (firstn_skipn (Z.to_nat sk) inp) in Oi. pose proof (okb_l _ _ Oi) as Of. rewrite (sput_0 c) in E4.
    destruct (dstep_state [] _ _ _ _ Of E4) as [b2 E5]. destruct (sput_plain _ _ Fl' E5) as [-> ->].
    assert (Lp : p = p0 + len inp) by apply Sg. unfold len in Lp, Hsk.
    destruct (todo' =? 0)%nat eqn:T0; [rewrite pack_pos in Ev by lia; injection Ev as <-; lia|]. apply Nat.eqb_neq in T0.
    match type of Ev with match ?m with _ => _ end = _ => destruct m as [k|] eqn:Ef; [|discriminate] end.
    assert (N0 : dstep c ([], 0, false) [] false = Some ([], ([], 0, false))) by (rewrite <- (sput_0 c); now apply dstep_nil).
    rewrite E5 in Ec. assert (T1 : (0 < todo')%nat) by lia. destruct (feed_plain _ _ _ _ _ [] [] _ (okb_r _ _ Oi) Ec N0 eq_refl T1 Ef) as (pos & -> & Hp).
    cbn [app] in Hp. unfold len in Hp. rewrite skipn_length in Hp. rewrite pack_pos in Ev by lia. injection Ev as <-. lia.
  Qed.

  (** * The invariant is kept *)
  Lemma pl_same t t' : t_decoder c t' = t_decoder c t -> (t_snap t' = t_snap t \/ t_snap t' = None) -> pl t -> pl t'.
  Proof.
    intros E [S|S] [H1 H2]; split; rewrite ?E, ?S; auto. intros fl inp X. discriminate.
  Qed.
  Lemma pl_chunk t p r1 tel q r t' : trep t p r1 tel q -> t_dec t <> None -> pl t -> read_chunk c t = (r, t') -> pl t'.
  Proof.
    intros R Dn [[b Cd] Sf] E. destruct (t_dec t) as [d|] eqn:Ed; [clear Dn|congruence].
    pose proof R as [B P U O K D F L T S]. unfold t_decoder in O, K, F, Cd. rewrite Ed in O, K, F, Cd.
    unfold read_chunk in E. rewrite Ed, getstate_core, Cd, sget_plain in E.
    destruct (bst_read1 _ _ _ _ B) as (ch & b' & E1 & Sg & B' & Hend). unfold bind at 1 in E. unfold on_b in E. rewrite E1 in E. cbv beta iota zeta in E.
    set (eof := match ch with [] => true | _ => false end) in *. destruct K as [p0 K].
    assert (Hb : d_buf d = b) by (injection Cd; auto). rewrite Hb in K. pose proof (okb_seg _ _ _ (seg_app _ _ _ _ _ _ K Sg)) as Ob.
    unfold bind at 1, t_decode, t_decoder in E. cbn [set_b t_dec] in E. rewrite Ed in E. pose proof (dec_decode_core c d ch eof) as A.
    destruct (dec_decode c d ch eof) as [[o d']|].
    2:{ injection E as <- <-. split; unfold t_decoder; cbn [set_b t_dec t_snap]; rewrite ?Ed; eauto. }
    rewrite Cd in A. destruct (dstep_state _ _ _ _ _ Ob A) as [b1 E5].
    unfold bind, upd_t, ret in E. cbn [t_telling set_chars set_ratio set_dec set_b] in E. destruct (t_telling t); injection E as <- <-.
    - split; unfold t_decoder; tcbn; [eauto|]. intros fl inp X. now injection X as <- _.
    - split; unfold t_decoder; tcbn; eauto.
  Qed.
  Lemma pl_get n t r t' : pl t -> get_chars n t = (r, t') -> pl t'.
  Proof. intros H E. unfold get_chars in E. injection E as <- <-. eapply pl_same; [reflexivity|now left|exact H]. Qed.
  Lemma pl_make t r t' : pl t -> t_make_decoder c t = (r, t') -> pl t'.
  Proof.
    intros H E. unfold t_make_decoder, upd_t in E. injection E as <- <-. destruct (t_dec t) eqn:Ed; [exact H|].
    apply (pl_same t); [unfold t_decoder; cbn; now rewrite Ed|now left|exact H].
  Qed.

  Lemma pl_read_loop size : forall fuel t p r1 tel q res r t', trep t p r1 tel q -> t_dec t <> None -> pl t -> read_loop fuel c size res t = (r, t') -> pl t'.
  Proof.
    induction fuel as [|fuel IH]; intros t p r1 tel q res r t' R Dn H E; cbn [read_loop] in E; [now injection E as _ <-|].
    destruct (length res <? size)%nat; [|now injection E as _ <-].
    destruct (read_chunk_ok c G C small t p r1 tel q R Dn) as (more & t1 & p1 & r2 & E1 & R1 & _ & _ & D1 & _).
    pose proof (pl_chunk _ _ _ _ _ _ _ R Dn H E1) as H1. unfold bind at 1 in E. rewrite E1 in E.
    destruct (get_chars_ok c C (Some (size - length res)%nat) t1 p1 r2 tel q R1) as (t2 & E2 & R2 & _ & D2 & _).
    pose proof (pl_get _ _ _ _ H1 E2) as H2. unfold bind at 1 in E. rewrite E2 in E. destruct more; [|now injection E as _ <-].
    refine (IH _ _ _ _ _ _ _ _ R2 _ H2 E). congruence.
  Qed.

  Lemma pl_read n t p r1 tel q r t' : trep t p r1 tel q -> pl t -> t_read c n t = (r, t') -> pl t'.
  Proof.
    intros R H E. unfold t_read in E. unfold bind at 1 in E. rewrite (readable_ok _ _ _ _ _ _ _ R) in E.
    destruct (make_decoder_ok c C _ _ _ _ _ R) as (t1 & E1 & R1 & D1 & _). unfold bind at 1 in E. rewrite E1 in E. pose proof (pl_make _ _ _ H E1) as H1.
    destruct (match n with None => -1 | Some n => n end <? 0).
    - destruct (get_chars_ok c C None _ _ _ _ _ R1) as (t2 & E2 & R2 & C2 & D2 & S2 & U2 & B2). unfold bind at 1 in E. rewrite E2 in E. pose proof (pl_get _ _ _ _ H1 E2) as H2.
      destruct (bst_read_all _ _ _ _ (tr_b _ _ _ _ _ _ _ R2)) as (b' & E3 & B'). unfold bind at 1, on_b in E. rewrite E3 in E. cbv beta iota in E.
      rewrite <- D2 in D1. destruct (t_dec t2) as [d|] eqn:Ed; [clear D1|congruence]. destruct H2 as [[b Cd] Sf]. unfold t_decoder in Cd. rewrite Ed in Cd.
      pose proof (tr_kept _ _ _ _ _ _ _ R2) as K. unfold t_decoder in K. rewrite Ed in K. destruct K as [p0 K]. assert (Hb : d_buf d = b) by (injection Cd; auto). rewrite Hb in K.
      assert (Sg : seg C p (from p C) (p + len (from p C))).
      { split; [apply (bst_pos _ _ _ _ (tr_b _ _ _ _ _ _ _ R2))|]. split; [reflexivity|]. rewrite (from_end C (p + len (from p C))), app_nil_r; [reflexivity|].
        unfold from, len. rewrite skipn_length. pose proof (bst_pos _ _ _ _ (tr_b _ _ _ _ _ _ _ R2)). lia. }
      pose proof (okb_seg _ _ _ (seg_app _ _ _ _ _ _ K Sg)) as Ob.
      unfold bind at 1, t_decode, t_decoder in E. cbn [set_b t_dec] in E. rewrite Ed in E. pose proof (dec_decode_core c d (from p C) true) as A.
      destruct (dec_decode c d (from p C) true) as [[o d']|].
      2:{ injection E as <- <-. split; unfold t_decoder; cbn [set_b t_dec t_snap]; rewrite ?Ed; eauto. }
      rewrite Cd in A. destruct (dstep_state _ _ _ _ _ Ob A) as [b1 E5].
      unfold bind, upd_t, ret in E. cbn [t_snap set_b set_dec] in E. injection E as <- <-. destruct (t_snap t2) as [sn|] eqn:Sn.
      + split; unfold t_decoder; tcbn; [eauto|]. intros fl inp X. discriminate.
      + split; unfold t_decoder; tcbn; [eauto|]. rewrite Sn. intros fl inp X. discriminate.
    - match type of E with context [get_chars (Some ?k)] => set (size := k) in * end.
      destruct (get_chars_ok c C (Some size) _ _ _ _ _ R1) as (t2 & E2 & R2 & _ & D2 & _). unfold bind at 1 in E. rewrite E2 in E. pose proof (pl_get _ _ _ _ H1 E2) as H2.
      destruct (chunk_fuel_ok _ _ _ _ _ _ _ R2) as (fu & E3 & Hf). unfold bind at 1 in E. rewrite E3 in E.
      refine (pl_read_loop _ _ _ _ _ _ _ _ _ _ R2 _ H2 E). congruence.
  Qed.

  Lemma pl_fetch : forall fuel t p r1 tel q r t', trep t p r1 tel q -> t_dec t <> None -> pl t -> fetch fuel c t = (r, t') -> pl t'.
  Proof.
    induction fuel as [|fuel IH]; intros t p r1 tel q r t' R Dn H E; cbn [fetch] in E; [now injection E as _ <-|].
    destruct (read_chunk_ok c G C small t p r1 tel q R Dn) as (more & t1 & p1 & r2 & E1 & R1 & _ & _ & D1 & _).
    pose proof (pl_chunk _ _ _ _ _ _ _ R Dn H E1) as H1. unfold bind in E. rewrite E1 in E. destruct more; cbn [negb] in E; [|now injection E as _ <-].
    destruct (t_chars t1); [eauto|now injection E as _ <-].
  Qed.
  Lemma pl_rewind n t r t' : pl t -> rewind_chars n t = (r, t') -> pl t'.
  Proof.
    intros H E. unfold rewind_chars in E. destruct (_ <? n)%nat; injection E as <- <-; [exact H|]. eapply pl_same; [reflexivity|now left|exact H].
  Qed.
  Lemma pl_finish n (x : list Z) t r t' : pl t -> (rewind_chars n ;; ret x) t = (r, t') -> pl t'.
  Proof.
    intros H E. unfold bind in E. destruct (rewind_chars n t) as [[[]|e] t1] eqn:E1; pose proof (pl_rewind _ _ _ _ H E1); [unfold ret in E|]; now injection E as _ <-.
  Qed.
  Lemma pl_line_loop size : forall fuel t p r1 tel q line start r t', trep t p r1 tel q -> t_dec t <> None -> pl t ->
    tline_loop fuel c size line start t = (r, t') -> pl t'.
  Proof.
    induction fuel as [|fuel IH]; intros t p r1 tel q line start r t' R Dn H E; cbn [tline_loop] in E; [now injection E as _ <-|].
    destruct (find_end c line start); [eapply pl_finish; eauto|]. destruct (over size (length line)); [eapply pl_finish; eauto|].
    destruct (chunk_fuel_ok _ _ _ _ _ _ _ R) as (f & E1 & Hf1). unfold bind at 1 in E. rewrite E1 in E.
    destruct (fetch_ok c G C small f t p r1 tel q R Dn) as (t1 & p1 & r2 & E2 & R1 & _ & _ & D1 & _); [lia|].
    pose proof (pl_fetch _ _ _ _ _ _ _ _ R Dn H E2) as H1. unfold bind at 1 in E. rewrite E2 in E. destruct (t_chars t1) as [|x l] eqn:Ec.
    - injection E as _ <-. apply (pl_same t1); [reflexivity|now right|exact H1].
    - destruct (get_chars_ok c C None _ _ _ _ _ R1) as (t2 & E3 & R2 & _ & D2 & _). unfold bind at 1 in E. rewrite E3 in E.
      refine (IH _ _ _ _ _ _ _ _ _ R2 _ (pl_get _ _ _ _ H1 E3) E). congruence.
  Qed.
  Lemma pl_readline n t p r1 tel q r t' : trep t p r1 tel q -> pl t -> t_readline c n t = (r, t') -> pl t'.
  Proof.
    intros R H E. unfold t_readline in E. unfold bind at 1, t_check_closed at 1 in E. rewrite (bst_open _ _ _ _ (tr_b _ _ _ _ _ _ _ R)) in E.
    destruct (get_chars_ok c C None _ _ _ _ _ R) as (t1 & E1 & R1 & _). unfold bind at 1 in E. rewrite E1 in E. pose proof (pl_get _ _ _ _ H E1) as H1.
    destruct (make_decoder_ok c C _ _ _ _ _ R1) as (t2 & E2 & R2 & D2 & _). unfold bind at 1 in E. rewrite E2 in E. pose proof (pl_make _ _ _ H1 E2) as H2.
    destruct (chunk_fuel_ok _ _ _ _ _ _ _ R2) as (f & E3 & Hf). unfold bind at 1 in E. rewrite E3 in E. eapply pl_line_loop; eauto.
  Qed.
  Lemma pl_next t p r1 tel q r t' : trep t p r1 tel q -> pl t -> t_next c t = (r, t') -> pl t'.
  Proof.
    intros R H E. unfold t_next in E. unfold bind at 1, upd_t at 1 in E.
    assert (R0 : trep (set_telling t false) p r1 false q).
    { destruct R as [B P U O K D F L T S]. split; auto. discriminate. }
    assert (H0 : pl (set_telling t false)) by (eapply pl_same; [reflexivity|now left|exact H]).
    unfold bind at 1 in E. destruct (t_readline c None (set_telling t false)) as [[l|e] t1] eqn:E1; pose proof (pl_readline _ _ _ _ _ _ _ _ R0 H0 E1) as H1; [|now injection E as _ <-].
    destruct l; [|now injection E as _ <-]. unfold bind, upd_t, ret in E. injection E as _ <-. apply (pl_same t1); [reflexivity|now right|exact H1].
  Qed.

  (** * seek() *)
  Lemma init_plain : core c (dec_init c) = ([], 0, false).
  Proof. rewrite (core_init c G). apply sput_0. Qed.
  Lemma unpack_plain' n : 0 <= n < 2 ^ 63 -> unpack_cookie n = mkCk n 0 0 false 0.
  Proof.
    intros H. assert (P64 : 2 ^ 63 < 2 ^ 64) by reflexivity. assert (F0 : field 0) by (split; [lia|reflexivity]). rewrite <- (pack_pos n) at 1 by (split; lia). apply unpack_pack. repeat split; cbn; try lia; apply F0.
  Qed.
  Lemma seek_fields t p r1 tel q n : trep t p r1 tel q -> 0 <= n < 2 ^ 63 ->
    exists t', t_seek guess c n 0 t = (Ok n, t') /\ bst (tc_kind c) (t_b t') C n /\ t_chars t' = [] /\ t_used t' = 0%nat /\ pl t'
      /\ (forall fl inp, t_snap t' = Some (fl, inp) -> inp = []).
  Proof.
    intros R Hn. unfold t_seek. unfold bind at 1, t_check_closed at 1. rewrite (bst_open _ _ _ _ (tr_b _ _ _ _ _ _ _ R)).
    unfold bind at 1, t_seekable at 1. rewrite (bst_seekable _ _ _ _ (tr_b _ _ _ _ _ _ _ R)). cbn [negb Z.eqb].
    unfold t_seek_to. unfold bind at 1. destruct (Z.ltb_spec n 0); [lia|]. unfold ret at 1.
    destruct (flush_text _ _ _ _ _ _ _ R) as (b1 & E1 & B1). unfold bind at 1. rewrite E1. rewrite (unpack_plain' n Hn). cbv zeta. cbn [ck_pos ck_flags ck_skip ck_feed].
    destruct (bst_seek _ _ _ _ n B1) as (b2 & E2 & B2); [lia|]. unfold bind at 1, on_b at 1. tcbn. rewrite E2. tcbn.
    unfold bind at 1, upd_t at 1. tcbn. unfold bind at 1, upd_t at 1. tcbn. change (0 =? 0) with true. cbn [negb orb].
    unfold bind at 1, ret at 1. unfold bind, reset_encoder, upd_t, ret.
    eexists. split; [reflexivity|]. unfold pl, t_decoder. destruct (t_dec t) as [d|] eqn:Ed; [destruct (n =? 0)|]; tcbn; rewrite ?Ed; (split; [exact B2|split; [reflexivity|split; [reflexivity|]]]).
    - split; [|discriminate]. split; [exists []; unfold dec_reset; apply init_plain|discriminate].
    - split; [split; [exists []; rewrite setstate_core; apply sput_0|]|]; intros fl inp X; now injection X as <- <-.
    - split; [|discriminate]. split; [exists []; apply init_plain|discriminate].
  Qed.
  Lemma end_fields t p r1 tel q : trep t p r1 tel q ->
    exists t', t_seek guess c 0 2 t = (Ok (len C), t') /\ bst (tc_kind c) (t_b t') C (len C) /\ t_chars t' = [] /\ t_used t' = 0%nat /\ pl t' /\ t_snap t' = None.
  Proof.
    intros R. unfold t_seek. unfold bind at 1, t_check_closed at 1. rewrite (bst_open _ _ _ _ (tr_b _ _ _ _ _ _ _ R)).
    unfold bind at 1, t_seekable at 1. rewrite (bst_seekable _ _ _ _ (tr_b _ _ _ _ _ _ _ R)). change (2 =? 1) with false. change (2 =? 2) with true. change (0 =? 0) with true. cbn [negb].
    destruct (flush_text _ _ _ _ _ _ _ R) as (b1 & E1 & B1). unfold bind at 1. rewrite E1.
    destruct (bst_seek_end _ _ _ _ B1) as (b2 & E2 & B2). unfold bind at 1, on_b at 1. tcbn. rewrite E2. tcbn.
    unfold bind at 1, upd_t at 1. tcbn. unfold bind at 1, upd_t at 1. tcbn. unfold bind, reset_encoder, upd_t, ret.
    eexists. split; [reflexivity|]. unfold pl, t_decoder. destruct (t_dec t) as [d|] eqn:Ed; tcbn; rewrite ?Ed; (split; [exact B2|split; [reflexivity|split; [reflexivity|split; [|reflexivity]]]]).
    - split; [exists []; unfold dec_reset; apply init_plain|discriminate].
    - split; [exists []; apply init_plain|discriminate].
  Qed.
  Lemma bst_fun k b p p' : bst k b C p -> bst k b C p' -> p = p'.
  Proof. intros B B'. destruct (bst_tell _ _ _ _ B) as (b1 & E1 & _). destruct (bst_tell _ _ _ _ B') as (b2 & E2 & _). rewrite E1 in E2. now injection E2. Qed.
  Lemma trep_fresh t p r1 tel q : trep t p r1 tel q -> t_chars t = [] -> trep t p r1 tel false.
  Proof.
    intros [B P U O K D F L T S] H. split; auto. intros X. specialize (S X). unfold snap_ok in *. destruct (t_dec t); [|exact S]. destruct (t_snap t) as [[fl inp]|]; [|exact S].
    destruct S as (S1 & S2 & S3 & _). repeat (split; [assumption|]). intros _ N. congruence.
  Qed.
  Lemma tell_empty t p r1 : trep t p r1 true false -> t_chars t = [] -> t_used t = 0%nat -> pl t -> (forall fl inp, t_snap t = Some (fl, inp) -> inp = []) -> tell_value t p = Ok p.
  Proof.
    intros R Hc Hu [_ Sf] Si. unfold tell_value. rewrite Hc, Hu. destruct (t_dec t); [|reflexivity]. destruct (t_snap t) as [[fl inp]|]; [|reflexivity].
    rewrite (Sf _ _ eq_refl), (Si _ _ eq_refl). cbn [length Nat.eqb]. rewrite Z.sub_0_r. f_equal. apply pack_pos.
    pose proof (bst_pos _ _ _ _ (tr_b _ _ _ _ _ _ _ R)). pose proof (tr_pos _ _ _ _ _ _ _ R) as X. unfold maxpos in X. assert (2 ^ 63 < 2 ^ 64) by reflexivity. split; lia.
  Qed.

  (** * Every place in the text is at a byte position *)
  Lemma cut : forall x r s k, cd_decode (tc_codec c) ([], 0) x false = Some (r, s) -> (k <= length r)%nat ->
    exists x1 x2, x = x1 ++ x2 /\ cd_decode (tc_codec c) ([], 0) x1 false = Some (firstn k r, ([], 0)).
  Proof.
    induction x as [|y x IH] using rev_ind; intros r s k E Hk.
    - rewrite (gc_nil _ G) in E. injection E as <- <-. cbn in Hk. replace k with 0%nat by lia. exists [], []. split; [reflexivity|apply (gc_nil _ G)].
    - destruct (cd_decode (tc_codec c) ([], 0) x false) as [[o1 s1]|] eqn:E1; [|rewrite (gc_error _ G _ _ _ _ E1) in E; discriminate].
      pose proof E as E0. rewrite (gc_app _ G _ _ _ _ _ _ E1) in E. destruct (cd_decode (tc_codec c) s1 [y] false) as [[o2 [b2 f2]]|] eqn:E2; [|discriminate]. injection E as <- <-.
      destruct (Nat.le_gt_cases k (length o1)) as [L|L].
      + destruct (IH _ _ k eq_refl L) as (x1 & x2 & -> & D). exists x1, (x2 ++ [y]). rewrite app_assoc. split; [reflexivity|]. rewrite firstn_app. replace (k - length o1)%nat with 0%nat by lia.
        cbn [firstn]. now rewrite app_nil_r.
      + destruct (pc_one _ PC _ _ _ _ _ _ _ E1 E2) as [->|[[a ->] ->]]; [rewrite app_nil_r in Hk; lia|]. rewrite app_length in Hk. cbn [length] in Hk.
        exists (x ++ [y]), []. rewrite app_nil_r. split; [reflexivity|]. rewrite E0. rewrite firstn_all2 by (rewrite app_length; cbn [length]; lia). now rewrite (pc_flags _ PC _ _ _ _ _ E0).
  Qed.

  Definition at_byte (n : Z) (r : list Z) : Prop := 0 <= n < 2 ^ 63 /\ fut c (sput c 0) (from n C) = Some r.
  Lemma at_told n r : at_byte n r -> told c C n r.
  Proof.
    intros [Hn F]. exists (mkCk n 0 0 false 0). assert (Hf : field n) by (apply pos_field; unfold maxpos; lia).
    assert (O0 : core_ok c (sput c 0)) by (rewrite (sput_0 c); split; [split; [lia|reflexivity]|auto]).
    split; [symmetry; now apply pack_pos|]. cbn [ck_pos ck_flags ck_skip]. split; [split; [exact Hf|split; [exact field_0|split; exact field_0]]|]. split; [apply Hn|].
    split; [split; [split; [lia|reflexivity]|exact O0]|]. left. split; [reflexivity|exact F].
  Qed.
  Lemma told_at n r : told c C n r -> 0 <= n < 2 ^ 63 -> at_byte n r.
  Proof.
    intros (k & En & Fk & Pk & Fl & Tk) Hn. split; [exact Hn|].
    assert (Ek : k = mkCk n 0 0 false 0) by (rewrite <- (unpack_pack k Fk), <- En; now apply unpack_plain').
    rewrite Ek in Tk. cbn [ck_pos ck_flags ck_skip] in Tk. destruct Tk as [[_ F]|[X _]]; [exact F|lia].
  Qed.
  Lemma okb_from n : okb (from n C).
  Proof.
    destruct NC as [H|H]; [now left|right]. intros X. apply H. rewrite <- (firstn_skipn (Z.to_nat n) C). apply in_or_app. now right.
  Qed.
  Lemma at_skip n r k : at_byte n r -> exists n', at_byte n' (skipn k r).
  Proof.
    intros [Hn F]. rewrite <- (firstn_skipn k r) in F. assert (Hk : (Nat.min k (length r) <= length r)%nat) by lia.
    unfold fut in F. rewrite (sput_0 c) in F. rewrite (dstep_plain [] _ true (okb_from n)) in F. cbn [app] in F.
    destruct (cd_decode (tc_codec c) ([], 0) (from n C) true) as [[raw [b0 f0]]|] eqn:E; [|discriminate]. injection F as F. rewrite firstn_skipn in F. subst raw.
    destruct (pc_final _ PC _ _ _ E) as [s' E']. destruct (cut _ _ _ _ E' Hk) as (x1 & x2 & Ex & D).
    exists (n + len x1). assert (Ef : from (n + len x1) C = x2).
    { unfold from in *. replace (Z.to_nat (n + len x1)) with (Z.to_nat n + length x1)%nat by (unfold len; lia). rewrite <- P_Bytes.skipn_skipn, Ex, skipn_app, skipn_all, Nat.sub_diag. reflexivity. }
    pose proof (len_nonneg x1) as L1. split.
    - split; [lia|]. destruct x1 as [|y x1]; [change (len []) with 0; lia|]. assert (2 ^ 59 < 2 ^ 63) by reflexivity.
      apply (f_equal (@length _)) in Ex. unfold from in Ex. rewrite skipn_length, app_length in Ex. unfold len in *. cbn [length] in *. lia.
    - rewrite Ef. unfold fut. rewrite (sput_0 c). rewrite (dstep_plain [] x2 true).
      2:{ cbn [app]. rewrite <- Ef. apply okb_from. }
      cbn [app]. rewrite Ex, (gc_app _ G _ _ _ _ _ _ D) in E. destruct (cd_decode (tc_codec c) ([], 0) x2 true) as [[o2 [b2 f2]]|]; [|discriminate]. injection E as E _ _.
      f_equal. replace (skipn k r) with (skipn (Nat.min k (length r)) r).
      + rewrite <- E at 2. rewrite skipn_app, firstn_length. rewrite skipn_all2 by (rewrite firstn_length; lia). replace (_ - _)%nat with 0%nat by lia. reflexivity.
      + destruct (Nat.le_ge_cases k (length r)); [now rewrite Nat.min_l|]. rewrite Nat.min_r by lia. now rewrite !skipn_all2 by lia.
  Qed.

  (** * One step *)
  Definition cursor (t : tstate) (s : Z * bool) : Prop :=
    exists p r1, trep t p r1 (snd s) false /\ pl t /\ at_byte (fst s) (left t r1) /\ (snd s = true -> tell_value t p = Ok (fst s)).
  Lemma cursor_on t p r1 : trep t p r1 true false -> pl t -> exists n, cursor t (n, true) /\ at_byte n (left t r1).
  Proof.
    intros R P. destruct (tell_plain _ _ _ R P) as (n & b' & _ & E & Tn & Hn & _). pose proof (told_at _ _ Tn Hn) as A. exists n. split; [|exact A].
    exists p, r1. cbn [fst snd]. auto.
  Qed.
  Lemma cursor_any t p r1 tel n0 r k : trep t p r1 tel false -> pl t -> at_byte n0 r -> left t r1 = skipn k r -> exists n, cursor t (n, tel) /\ at_byte n (left t r1).
  Proof.
    intros R P A L. destruct tel; [now apply (cursor_on t p r1)|]. destruct (at_skip _ _ k A) as [n A']. rewrite <- L in A'. exists n. split; [|exact A'].
    exists p, r1. cbn [fst snd]. repeat (split; [assumption|]). discriminate.
  Qed.
End Plain.
