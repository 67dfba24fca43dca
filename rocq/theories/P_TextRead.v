(** The invariant of a text stream that is read, and read(). *)
From Coq Require Import ZArith List Bool Lia.
From Verif Require Import M_Base M_Registry M_World M_Raw M_Buffered M_Newline M_Text S_Bytes S_Raw S_Buffered S_Newline S_Text
  P_Bytes P_Raw P_Buffered P_BufOps P_Newline P_Decode P_TextBase.
Import ListNotations.
Open Scope Z_scope.

Ltac tcbn := cbn [set_enc set_dec set_chars set_snap set_telling set_ratio set_b t_enc t_dec t_chars t_used t_snap t_telling t_ratio t_b].

Section Text.
  Variable c : tconf.
  Hypothesis G : good_codec (tc_codec c).
  Variable C : list Z.
  Hypothesis small : len C < 2 ^ 59.

  Definition clean (o r : list Z) : Prop := readuniversal c = true -> readtranslate c = false -> clean_cut o r.
  Lemma clean_nil_l r : clean [] r.
  Proof. intros _ _ H. discriminate H. Qed.
  Lemma clean_nil_r o : clean o [].
  Proof. intros _ _ _ t H. discriminate H. Qed.

  Definition flags_ok (fl : Z) : Prop := 0 <= fl < 2 ^ 63 /\ core_ok c (sput c fl).

  (** What tell() relies upon. *)
  Definition snap_ok (t : tstate) (p : Z) (r1 : list Z) (q : bool) : Prop :=
    match t_dec t, t_snap t with
    | Some d, Some (fl, inp) =>
        flags_ok fl /\ (exists p0, seg C p0 inp p) /\
        (exists fin, dstep c (sput c fl) inp fin = Some (t_chars t, core c d) /\ (fin = true -> from p C = [])) /\
        (q = false -> t_chars t <> [] -> (fst (t_ratio t) <= length inp)%nat /\ (length (t_chars t) <= snd (t_ratio t))%nat)
    | _, _ => t_chars t = [] /\ fut c (sput c 0) (from p C) = Some r1
    end.

  Record trep (t : tstate) (p : Z) (r1 : list Z) (tel q : bool) : Prop := mkTrep {
    tr_b : bst (tc_kind c) (t_b t) C p;
    tr_pos : p < maxpos;
    tr_used : (t_used t <= length (t_chars t))%nat;
    tr_ok : core_ok c (core c (t_decoder c t));
    tr_kept : exists p0, seg C p0 (d_buf (t_decoder c t)) p;
    tr_dec : t_dec t = None -> t_snap t = None;
    tr_fut : fut c (core c (t_decoder c t)) (from p C) = Some r1;
    tr_clean : clean (t_chars t) r1;
    tr_tel : t_telling t = tel;
    tr_snap : tel = true -> snap_ok t p r1 q }.

  (** The text that is left. *)
  Definition left (t : tstate) (r1 : list Z) : list Z := skipn (t_used t) (t_chars t) ++ r1.

  Lemma trep_used t p r1 tel q n : trep t p r1 tel q -> (n <= length (t_chars t))%nat -> trep (set_chars t (t_chars t) n) p r1 tel q.
  Proof. intros [? ? ? ? ? ? ? ? ? ?] H. split; cbn; auto. Qed.
  Lemma trep_sought t p r1 tel q : trep t p r1 tel q -> trep t p r1 tel true.
  Proof.
    intros [? ? ? ? ? ? ? ? ? S]. split; auto. intros H. specialize (S H). unfold snap_ok in *. destruct (t_dec t); [|auto].
    destruct (t_snap t) as [[fl inp]|]; [|auto]. destruct S as (S1 & S2 & S3 & _). repeat (split; [assumption|]). discriminate.
  Qed.
  Lemma trep_b t p r1 tel q b : trep t p r1 tel q -> bst (tc_kind c) b C p -> trep (set_b t b) p r1 tel q.
  Proof. intros [? ? ? ? ? ? ? ? ? ?] H. split; cbn; auto. Qed.
  Lemma set_telling_same t : set_telling t (t_telling t) = t.
  Proof. destruct t; reflexivity. Qed.

  Lemma sput_0 : sput c 0 = ([], 0, false).
  Proof. unfold sput. destruct (readuniversal c); reflexivity. Qed.
  Lemma core_init : core c (dec_init c) = sput c 0.
  Proof. rewrite init_core, sput_0, (gc_d0 _ G). reflexivity. Qed.

  Lemma make_decoder_ok t p r1 tel q : trep t p r1 tel q ->
    exists t', t_make_decoder c t = (Ok tt, t') /\ trep t' p r1 tel q /\ t_dec t' <> None /\ t_used t' = t_used t /\ t_chars t' = t_chars t
      /\ t_b t' = t_b t /\ t_snap t' = t_snap t.
  Proof.
    intros R. unfold t_make_decoder, upd_t. eexists. split; [reflexivity|]. destruct (t_dec t) as [d|] eqn:E.
    - rewrite E. split; [exact R|]. repeat split; congruence.
    - split; [|cbn; repeat split; congruence]. destruct R as [B P U O K D F L T S]. unfold t_decoder in *. rewrite E in *.
      split; unfold t_decoder; cbn; auto. intros H. specialize (S H). unfold snap_ok in *. rewrite E in S. cbn. rewrite (D eq_refl). exact S.
  Qed.

  Lemma fut_final s x o s1 : dstep c s x true = Some (o, s1) -> fut c s1 [] = Some [].
  Proof.
    destruct s1 as [[b f] pd]. intros H. destruct (dstep_final c G _ _ _ _ _ _ H) as [-> ->]. now apply fut_end.
  Qed.

  (** The decoder state as a flag. *)
  Lemma state_flag s x fin : core_ok c s ->
    let '(b, fl) := sget c s in
    flags_ok fl /\ dstep c s x fin = dstep c (sput c fl) (b ++ x) fin /\ b = fst (fst s).
  Proof.
    destruct s as [[b f] pd]. intros O. cbn [sget]. pose proof (sget_range c _ O) as Rg. cbn [sget snd] in Rg.
    assert (O' : core_ok c ([], f, pd)) by exact O. pose proof (sput_sget c f pd O') as P. cbn [sget snd] in P.
    split; [split; [exact Rg|now rewrite P]|]. split; [|reflexivity]. rewrite P. now apply dstep_back.
  Qed.

  Lemma dec_decode_ok d x fin o s1 : dstep c (core c d) x fin = Some (o, s1) -> exists d', dec_decode c d x fin = Some (o, d') /\ core c d' = s1.
  Proof.
    intros H. pose proof (dec_decode_core c d x fin) as A. destruct (dec_decode c d x fin) as [[o' d']|]; rewrite A in H; [|discriminate].
    injection H as -> <-. eauto.
  Qed.

  Lemma read_chunk_ok t p r1 tel q : trep t p r1 tel q -> t_dec t <> None ->
    exists more t' p' r1', read_chunk c t = (Ok more, t') /\ trep t' p' r1' tel q /\ r1 = t_chars t' ++ r1' /\ t_used t' = 0%nat
      /\ t_dec t' <> None
      /\ (if more : bool then (length (from p' C) < length (from p C))%nat else p' = p /\ r1' = [] /\ from p C = []).
  Proof.
    intros R Dn. destruct (t_dec t) as [d|] eqn:Ed; [clear Dn|congruence].
    pose proof R as [B P U O K D F L T S]. unfold t_decoder in O, K, F. rewrite Ed in O, K, F.
    unfold read_chunk. rewrite Ed, getstate_core. pose proof (fun x fin => state_flag (core c d) x fin O) as SF.
    destruct (sget c (core c d)) as [buf fl].
    destruct (bst_read1 _ _ _ _ B) as (ch & b' & E1 & Sg & B' & Hend). pose proof (bst_pos _ _ _ _ B) as Pp.
    unfold bind at 1. unfold on_b. rewrite E1. cbv beta iota zeta.
    (* the decoding *)
    set (eof := match ch with [] => true | _ => false end).
    assert (X : exists o s1 r1', dstep c (core c d) ch eof = Some (o, s1) /\ fut c s1 (from (p + len ch) C) = Some r1' /\ r1 = o ++ r1'
                /\ clean o r1' /\ (eof = true -> r1' = [] /\ from (p + len ch) C = [])).
    { destruct ch as [|x ch].
      - cbn in eof. unfold eof. replace (p + len []) with p by (cbn; lia). rewrite (Hend eq_refl) in *. unfold fut in F.
        destruct (dstep c (core c d) [] true) as [[o s1]|] eqn:E2; [|discriminate F]. injection F as <-.
        exists o, s1, []. split; [reflexivity|]. split; [eapply fut_final; eauto|]. rewrite app_nil_r. split; [reflexivity|]. split; [apply clean_nil_r|auto].
      - unfold eof. destruct Sg as (_ & _ & Sg). rewrite Sg in F. destruct (fut_step c G _ _ _ _ F) as (o & s1 & r1' & A1 & A2 & A3 & A4).
        exists o, s1, r1'. repeat (split; [assumption|]). discriminate. }
    destruct X as (o & s1 & r1' & E2 & F' & Er & Cl & He). destruct (dec_decode_ok _ _ _ _ _ E2) as (d' & E3 & Es).
    unfold bind at 1, t_decode. cbn [t_decoder set_b t_dec]. unfold t_decoder. cbn [set_b t_dec]. rewrite Ed. fold eof. rewrite E3. cbv beta iota.
    destruct (SF ch eof) as (Fl & E4 & Hb). cbn in Hb.
    assert (O' : core_ok c s1) by (eapply dstep_ok; eauto).
    assert (K' : exists p0, seg C p0 (d_buf d') (p + len ch)).
    { destruct s1 as [[b1 f1] pd1]. assert (Hd : d_buf d' = b1) by (injection Es; auto). rewrite Hd. pose proof (len_nonneg ch). destruct eof eqn:He'.
      - destruct (dstep_final c G _ _ _ _ _ _ E2) as [-> _]. exists (p + len ch). apply seg_nil. lia.
      - destruct (dstep_keep c G _ _ _ _ _ _ E2) as [a Ha]. cbn in Ha. destruct K as [p0 K]. pose proof (seg_app _ _ _ _ _ _ K Sg) as Q.
        rewrite Ha in Q. exists (p0 + len a). now apply seg_split in Q as [_ Q]. }
    assert (P' : p + len ch < maxpos).
    { destruct ch as [|x ch]; [change (len []) with 0; lia|]. pose proof (seg_slice _ _ _ _ Sg) as M. unfold len in *. cbn [length] in *. unfold maxpos.
      assert (2 ^ 59 < 2 ^ 63) by reflexivity. lia. }
    assert (Hm : if negb eof then (length (from (p + len ch) C) < length (from p C))%nat else p + len ch = p /\ r1' = [] /\ from p C = []).
    { unfold eof in *. destruct ch as [|x ch].
      - cbn [negb]. destruct (He eq_refl) as [-> _]. split; [cbn; lia|]. split; [reflexivity|auto].
      - cbn [negb]. destruct Sg as (_ & _ & ->). rewrite app_length. cbn [length]. lia. }
    unfold bind, upd_t, ret. cbn [t_telling set_chars set_ratio set_dec set_b].
    destruct (t_telling t) eqn:Tt; subst tel.
    - eexists (negb eof), _, (p + len ch), r1'. split; [reflexivity|]. split; [|cbn; split; [exact Er|]; split; [reflexivity|]; split; [discriminate|exact Hm]].
      split; unfold t_decoder; tcbn; auto; try lia; try discriminate; try (rewrite Es; assumption).
      intros _. unfold snap_ok. cbn. split; [exact Fl|]. split; [|split].
      + destruct K as [p0 K]. exists p0. rewrite Hb. eapply seg_app; eauto.
      + exists eof. split; [rewrite <- E4, E2, Es; reflexivity|]. intros H. now apply He.
      + intros _ No. rewrite app_length. destruct o; [congruence|]. cbn. lia.
    - eexists (negb eof), _, (p + len ch), r1'. split; [reflexivity|]. split; [|cbn; split; [exact Er|]; split; [reflexivity|]; split; [discriminate|exact Hm]].
      split; unfold t_decoder; tcbn; auto; try lia; try discriminate; try (rewrite Es; assumption).
  Qed.

  Lemma get_chars_ok n t p r1 tel q : trep t p r1 tel q ->
    exists t', get_chars n t = (Ok (match n with None => skipn (t_used t) (t_chars t) | Some n => firstn n (skipn (t_used t) (t_chars t)) end), t')
      /\ trep t' p r1 tel q /\ t_chars t' = t_chars t /\ t_dec t' = t_dec t /\ t_snap t' = t_snap t
      /\ t_used t' = (match n with None => length (t_chars t) | Some n => Nat.min (length (t_chars t)) (t_used t + n) end)
      /\ t_b t' = t_b t.
  Proof.
    intros R. unfold get_chars. eexists. split; [reflexivity|]. pose proof (tr_used _ _ _ _ _ R) as U.
    split; [|cbn; repeat split].
    - apply trep_used; [exact R|]. destruct n; rewrite ?firstn_length, skipn_length; lia.
    - destruct n; rewrite ?firstn_length, skipn_length; lia.
  Qed.

  Lemma chunk_fuel_ok t p r1 tel q : trep t p r1 tel q -> exists n, chunk_fuel t = (Ok n, t) /\ (length (from p C) + 3 <= n)%nat.
  Proof.
    intros R. unfold chunk_fuel, bind, on_b. rewrite (bst_fuel _ _ _ _ (tr_b _ _ _ _ _ R)). unfold ret.
    eexists. split; [destruct t; reflexivity|]. pose proof (from_len C p). lia.
  Qed.

  Lemma skipn_skipn' {A} a b (l : list A) : skipn a (skipn b l) = skipn (b + a) l.
  Proof. apply P_Bytes.skipn_skipn. Qed.

  Lemma read_loop_ok size : forall fuel t p r1 tel q res, trep t p r1 tel q -> t_dec t <> None ->
    ((length res < size)%nat -> skipn (t_used t) (t_chars t) = []) -> (length (from p C) + 2 <= fuel)%nat ->
    exists t' p' r1', read_loop fuel c size res t = (Ok (res ++ firstn (size - length res) (left t r1)), t')
      /\ trep t' p' r1' tel q /\ left t' r1' = skipn (size - length res) (left t r1).
  Proof.
    induction fuel as [|fuel IH]; intros t p r1 tel q res R Dn He Hf; [lia|].
    cbn [read_loop]. destruct (length res <? size)%nat eqn:Lt.
    2:{ apply Nat.ltb_ge in Lt. replace (size - length res)%nat with 0%nat by lia. cbn [firstn skipn]. rewrite app_nil_r.
        exists t, p, r1. split; [reflexivity|auto]. }
    apply Nat.ltb_lt in Lt. specialize (He Lt). assert (L0 : left t r1 = r1) by (unfold left; now rewrite He). rewrite L0.
    destruct (read_chunk_ok t p r1 tel q R Dn) as (more & t1 & p1 & r2 & E1 & R1 & Er & U1 & D1 & Hm).
    unfold bind. rewrite E1. destruct (get_chars_ok (Some (size - length res)%nat) t1 p1 r2 tel q R1) as (t2 & E2 & R2 & C2 & D2 & _ & U2 & _).
    rewrite E2. rewrite U1 in *. cbn [skipn plus] in *. set (n := (size - length res)%nat) in *. set (out := firstn n (t_chars t1)) in *.
    assert (Hlen : length out = Nat.min n (length (t_chars t1))) by (unfold out; rewrite firstn_length; reflexivity).
    assert (L2 : left t2 r2 = skipn (length out) r1).
    { unfold left. rewrite C2, U2, Er, skipn_app. replace (Nat.min (length (t_chars t1)) n) with (length out) by lia.
      replace (length out - length (t_chars t1))%nat with 0%nat by lia. reflexivity. }
    destruct more.
    - destruct (IH t2 p1 r2 tel q (res ++ out)) as (t3 & p3 & r3 & E3 & R3 & L3); [exact R2|congruence| |lia|].
      { rewrite app_length, C2, U2. intros H. apply skipn_all2. lia. }
      exists t3, p3, r3. rewrite E3. rewrite app_length in *. rewrite L2 in *. split; [|split; [exact R3|]].
      + f_equal. f_equal. rewrite <- app_assoc. f_equal. replace (size - (length res + length out))%nat with (n - length out)%nat by lia.
        unfold out at 1. replace (firstn n (t_chars t1)) with (firstn (length out) r1).
        * rewrite <- (firstn_skipn (length out) r1) at 3. rewrite firstn_app, firstn_firstn. 
          replace (Nat.min n (length out)) with (length out) by lia. f_equal. f_equal. rewrite firstn_length.
          assert (length out <= length r1)%nat by (rewrite Er, app_length; lia). lia.
        * rewrite Er, firstn_app. replace (length out - length (t_chars t1))%nat with 0%nat by lia. cbn [firstn]. rewrite app_nil_r.
          unfold out. rewrite firstn_length. destruct (Nat.le_ge_cases n (length (t_chars t1))).
          -- now rewrite Nat.min_l.
          -- rewrite Nat.min_r by lia. rewrite firstn_all. symmetry. now apply firstn_all2.
      + rewrite L3, skipn_skipn'. f_equal. lia.
    - destruct Hm as (-> & -> & Hend). rewrite app_nil_r in Er. unfold ret.
      exists t2, p, []. subst r1. split; [reflexivity|]. split; [exact R2|]. rewrite L2, Hlen.
      destruct (Nat.le_ge_cases n (length (t_chars t1))); [now rewrite Nat.min_l|]. rewrite Nat.min_r by lia.
      rewrite (skipn_all2 (n:=n)) by lia. now rewrite skipn_all.
  Qed.

  Lemma readable_ok t p r1 tel q : trep t p r1 tel q -> t_check_readable c t = (Ok tt, t).
  Proof.
    intros R. destruct (tr_b _ _ _ _ _ R) as (o & i & Rb & _ & _ & _ & K & _). unfold t_check_readable, t_check_closed.
    pose proof (bst_open _ _ _ _ (tr_b _ _ _ _ _ R)) as Op. destruct (tc_kind c); [now rewrite Op|discriminate K|now rewrite Op].
  Qed.

  Lemma t_read_ok n t p r1 tel q : trep t p r1 tel q ->
    exists t' p' r1', t_read c n t = (Ok (limit n (left t r1)), t') /\ trep t' p' r1' tel q
      /\ left t' r1' = skipn (length (limit n (left t r1))) (left t r1).
  Proof.
    intros R. unfold t_read. unfold bind at 1. rewrite (readable_ok _ _ _ _ _ R).
    destruct (make_decoder_ok _ _ _ _ _ R) as (t1 & E1 & R1 & D1 & U1 & C1 & B1 & _). unfold bind at 1. rewrite E1.
    assert (L1 : left t1 r1 = left t r1) by (unfold left; congruence). rewrite <- L1. clear R E1 U1 C1 B1 L1 t.
    assert (LIM : limit n (left t1 r1) =
              if match n with None => -1 | Some n => n end <? 0 then left t1 r1 else firstn (Z.to_nat match n with None => -1 | Some n => n end) (left t1 r1))
      by (destruct n; reflexivity). rewrite LIM. clear LIM.
    generalize (match n with None => -1 | Some n => n end). clear n. intros z. destruct (z <? 0) eqn:Hz.
    - destruct (get_chars_ok None _ _ _ _ _ R1) as (t2 & E2 & R2 & C2 & D2 & S2 & U2 & B2). unfold bind at 1. rewrite E2.
      destruct (bst_read_all _ _ _ _ (tr_b _ _ _ _ _ R2)) as (b' & E3 & B'). unfold bind at 1, on_b. rewrite E3. cbv beta iota.
      pose proof R2 as [B P U O K D F L T S]. rewrite <- D2 in D1. destruct (t_dec t2) as [d|] eqn:Ed; [clear D1|congruence].
      unfold t_decoder in O, K, F. rewrite Ed in O, K, F. pose proof F as F0. unfold fut in F.
      destruct (dstep c (core c d) (from p C) true) as [[o s1]|] eqn:E4; [|discriminate F]. injection F as ->.
      destruct (dec_decode_ok _ _ _ _ _ E4) as (d' & E5 & Es).
      unfold bind at 1, t_decode. unfold t_decoder. cbn [set_b t_dec]. rewrite Ed, E5. cbv beta iota.
      assert (Hp : from (p + len (from p C)) C = []).
      { unfold from at 1. apply skipn_all2. unfold from, len. rewrite skipn_length. pose proof (bst_pos _ _ _ _ B). lia. }
      assert (P' : p + len (from p C) < maxpos).
      { destruct (from p C) as [|x l] eqn:Ef; [change (len []) with 0; lia|]. pose proof (bst_pos _ _ _ _ B) as Pp. rewrite <- Ef. unfold len, from.
        rewrite skipn_length. unfold from in Ef. assert (Z.to_nat p < length C)%nat.
        { apply (f_equal (@length _)) in Ef. rewrite skipn_length in Ef. cbn in Ef. lia. }
        unfold len, maxpos in *. assert (2 ^ 59 < 2 ^ 63) by reflexivity. lia. }
      assert (Ff : fut c s1 [] = Some []) by (eapply fut_final; eauto).
      assert (O' : core_ok c s1) by (eapply dstep_ok; eauto).
      assert (K' : exists p0, seg C p0 (d_buf d') (p + len (from p C))).
      { destruct s1 as [[b1 f1] pd1]. assert (Hd : d_buf d' = b1) by (injection Es; auto). rewrite Hd.
        destruct (dstep_final c G _ _ _ _ _ _ E4) as [-> _]. exists (p + len (from p C)). apply seg_nil.
        pose proof (bst_pos _ _ _ _ B). pose proof (len_nonneg (from p C)). lia. }
      assert (F1 : fut c (sput c 0) [] = Some []) by (rewrite sput_0; now apply fut_end).
      unfold bind, upd_t, ret. cbn [t_snap set_b set_dec]. 
      eexists _, (p + len (from p C)), []. split; [|split].
      + unfold left. cbn [set_dec set_b]. reflexivity.
      + destruct (t_snap t2) as [sn|] eqn:Sn.
        * split; unfold t_decoder; tcbn; auto; try discriminate; try (rewrite Es, ?Hp; assumption); try apply clean_nil_l.
          intros _. unfold snap_ok. cbn. rewrite Hp. auto.
        * split; unfold t_decoder; tcbn; auto; try discriminate; try (rewrite Es, ?Hp; assumption); try apply clean_nil_r.
          intros Ht. specialize (S Ht). unfold snap_ok in *. rewrite Ed, Sn in S. cbn. rewrite Sn, Hp. tauto.
      + rewrite skipn_all. unfold left. rewrite app_nil_r. destruct (t_snap t2); cbn; [reflexivity|]. rewrite U2, C2. apply skipn_all.
    - apply Z.ltb_ge in Hz. set (size := Z.to_nat z).
      destruct (get_chars_ok (Some size) _ _ _ _ _ R1) as (t2 & E2 & R2 & C2 & D2 & S2 & U2 & B2). unfold bind at 1. rewrite E2.
      destruct (chunk_fuel_ok _ _ _ _ _ R2) as (fu & E3 & Hf). unfold bind at 1. rewrite E3.
      pose proof (tr_used _ _ _ _ _ R1) as Uu.
      destruct (read_loop_ok size fu t2 p r1 tel q (firstn size (skipn (t_used t1) (t_chars t1))) R2) as (t3 & p3 & r3 & E4 & R3 & L3); [congruence| |lia|].
      { rewrite firstn_length, skipn_length. intros H. rewrite C2, U2. apply skipn_all2. lia. }
      exists t3, p3, r3. rewrite E4. rewrite firstn_length, skipn_length in *.
      assert (L2 : left t2 r1 = skipn (Nat.min size (length (t_chars t1) - t_used t1)) (left t1 r1)).
      { unfold left. rewrite C2, U2, skipn_app, skipn_skipn', skipn_length.
        replace (Nat.min size (length (t_chars t1) - t_used t1) - (length (t_chars t1) - t_used t1))%nat with 0%nat by lia.
        cbn [skipn]. f_equal. f_equal. lia. }
      rewrite L2 in *. split; [|split; [exact R3|]].
      + f_equal. f_equal. unfold left. rewrite firstn_app, skipn_app, skipn_length.
        destruct (Nat.le_ge_cases size (length (t_chars t1) - t_used t1)).
        * replace (size - Nat.min size (length (t_chars t1) - t_used t1))%nat with 0%nat by lia.
          replace (size - (length (t_chars t1) - t_used t1))%nat with 0%nat by lia. reflexivity.
        * rewrite Nat.min_r by lia. rewrite Nat.sub_diag. cbn [skipn]. f_equal.
          rewrite skipn_all2; [reflexivity|]. rewrite skipn_length. lia.
      + rewrite L3, skipn_skipn'. unfold left. rewrite firstn_length, app_length, skipn_length.
        set (m := (length (t_chars t1) - t_used t1)%nat). set (l := skipn (t_used t1) (t_chars t1)).
        assert (Hl : length l = m) by (unfold l, m; now rewrite skipn_length).
        replace (Nat.min size m + (size - Nat.min size m))%nat with size by lia.
        destruct (Nat.le_ge_cases size (m + length r1)); [now rewrite Nat.min_l|]. rewrite Nat.min_r by lia.
        rewrite !skipn_all2; [reflexivity| |]; rewrite app_length; lia.
  Qed.
End Text.
