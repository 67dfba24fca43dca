(** Proofs for C95. *)
From Coq Require Import ZArith List Bool Lia.
From Verif Require Import M_Base M_Registry M_Kernel M_World M_Raw M_Buffered M_Newline M_Text S_Bytes S_Newline S_Text S_TextFiles S_Pipes M_Pipes S_PipeEnds S_TextPipe M_TextPipe
  P_Bytes P_Raw P_Newline P_Decode P_TextPlain P_Pipes P_TextRead P_TextLine.
Import ListNotations.
Open Scope Z_scope.

(** * When no system call fails *)
Lemma calm_hd w : calm w -> match hd IoFull (w_io w) with IoErr _ => False | _ => True end.
Proof. unfold calm. destruct (w_io w) as [|e l]; cbn; [auto|]. intros H. now inversion H. Qed.
Lemma calm_tl w : calm w -> Forall (fun e => match e with IoErr _ => False | _ => True end) (tl (w_io w)).
Proof. unfold calm. destruct (w_io w) as [|e l]; cbn; [auto|]. intros H. now inversion H. Qed.

Lemma calm_sys_read f w u n r w' : pend f w u -> f_readable f = true -> 0 <= n -> calm w -> sys_read (fd_of f) n w = (r, w') ->
  calm w' /\ exists d, r = Ok d.
Proof.
  intros [_ (o & Ho & Hu & Hr & _) (i & Hi & Hk)] Hrd Hn C H. unfold sys_read, bind, get_fd in H. rewrite Ho, Hu, Hi in H. cbv beta iota zeta in H.
  rewrite (Hr Hrd) in H. cbn [negb] in H. rewrite Hk in H. destruct (Z.ltb_spec n 0); [lia|]. rewrite next_io_eq in H.
  pose proof (calm_hd _ C) as Ch. pose proof (calm_tl _ C) as Ct.
  destruct (hd IoFull (w_io w)) as [|k|x]; [| |destruct Ch]; injection H as <- <-; (split; [exact Ct|eauto]).
Qed.
Lemma calm_inner_read f w u n r w' : pend f w u -> f_readable f = true -> 0 < n -> calm w -> inner_read f n w = (r, w') ->
  calm w' /\ exists d, r = Ok (Some d) /\ (d = [] -> inside w u = []).
Proof.
  intros P Hr Hn C H. unfold inner_read in H. destruct (sys_read (fd_of f) n w) as [r1 w1] eqn:E.
  destruct (calm_sys_read _ _ _ _ _ _ P Hr (Z.lt_le_incl _ _ Hn) C E) as (C1 & d & ->). injection H as <- <-. split; [exact C1|].
  exists d. split; [reflexivity|]. intros D. destruct (pipe_sys_read _ _ _ _ _ _ P Hr (Z.lt_le_incl _ _ Hn) E) as (_ & _ & _ & X). auto.
Qed.
Lemma calm_read1 b u n : preader b u -> calm (b_w b) -> 0 < n -> exists d b', reader_read1 n b = (Ok (Some d), b') /\ calm (b_w b')
  /\ bkept u b b' /\ front b u = d ++ front b' u /\ (d = [] -> front b u = []).
Proof.
  intros R C Hn. destruct (reader_read1 n b) as [r b'] eqn:E. destruct (pipe_read1 _ _ _ _ _ R E) as (K & D).
  assert (G : calm (b_w b') /\ exists d, r = Ok (Some d) /\ (d = [] -> front b u = [])).
  { unfold reader_read1, bind at 1 in E. rewrite (open_check _ _ R) in E. cbv zeta in E. destruct (Z.ltb_spec n 0); [lia|].
    destruct (Z.eqb_spec n 0); [lia|]. unfold bind in E. destruct (peek_unlocked 1 b) as [r1 b1] eqn:E1.
    assert (P : calm (b_w b1) /\ (exists x, r1 = Ok x) /\ (unread b1 = [] -> front b u = [])).
    { clear E D K. unfold peek_unlocked in E1. unfold bind at 1 in E1.
      destruct ((Z.of_nat (length (unread b)) <? Z.min 1 (b_size b)) || (Z.of_nat (length (unread b)) <=? 0)) eqn:Ec.
      2:{ injection E1 as <- <-. split; [exact C|]. split; [eauto|]. intros X. rewrite X in Ec. rewrite orb_true_r in Ec. discriminate. }
      assert (U0 : unread b = []).
      { pose proof (pr_size _ _ R). apply orb_true_iff in Ec. destruct (unread b); [reflexivity|].
        cbn [length] in Ec. destruct Ec as [X|X]; [apply Z.ltb_lt in X|apply Z.leb_le in X]; lia. }
      unfold bind at 1 in E1. unfold on_raw, raw_read in E1. rewrite (checks_read _ _ u _ (pr_end _ _ R) (pr_rd _ _ R)) in E1.
      rewrite U0 in E1. cbn [length] in E1.
      pose proof (pr_size _ _ R) as Sz. destruct (Z.ltb_spec (b_size b - Z.of_nat 0) 0); [lia|].
      destruct (inner_read (b_raw b) (b_size b - Z.of_nat 0) (b_w b)) as [r2 w2] eqn:E2.
      assert (S0 : 0 < b_size b - Z.of_nat 0) by lia.
      destruct (calm_inner_read _ _ _ _ _ _ (pr_end _ _ R) (pr_rd _ _ R) S0 C E2) as (C2 & d & -> & D).
      destruct d as [|x d].
      - injection E1 as <- <-. split; [exact C2|]. split; [eauto|]. intros _. unfold front. rewrite U0. now apply D.
      - injection E1 as <- <-. split; [exact C2|]. split; [eauto|]. intros X. exfalso. revert X. unfold unread. cbn [b_rpos b_rbuf set_rbuf skipn].
        intros X. now apply app_eq_nil in X as [_ X]. }
    destruct P as (C1 & (x & ->) & P). rewrite read_there in E by lia. injection E as <- <-. split; [exact C1|]. eexists. split; [reflexivity|].
    intros X. apply P. destruct (unread b1) as [|y l]; [reflexivity|]. exfalso. cbn [length] in X.
    replace (Z.to_nat (Z.min n (Z.of_nat (S (length l))))) with (S (Z.to_nat (Z.min n (Z.of_nat (S (length l))) - 1))) in X by lia. discriminate X. }
  destruct G as (C1 & d & -> & D1). destruct D as (d0 & [= <-] & D & _). exists d, b'. auto.
Qed.

Lemma calm_raw_write f w u d r w' : pend f w u -> f_writable f = true -> d <> [] -> calm w -> raw_write f d w = (r, w') ->
  calm w' /\ exists n, r = Ok (Some n).
Proof.
  intros P Hw Hd C H. destruct (pipe_raw_write _ _ _ _ _ _ P Hw Hd H) as (_ & Q).
  unfold raw_write in H. rewrite (checks_write f w u _ P Hw) in H.
  destruct P as [_ (o & Ho & Hu & _ & Hp) (i & Hi & Hk)].
  unfold bind, inner_write, sys_write, bind, get_fd in H. rewrite Ho, Hu, Hi in H. cbv beta iota zeta in H.
  rewrite (Hp Hw) in H. cbn [negb] in H. rewrite next_io_eq in H. rewrite Hk in H.
  pose proof (calm_hd _ C) as Ch. pose proof (calm_tl _ C) as Ct.
  destruct (hd IoFull (w_io w)) as [|k|x]; [| |destruct Ch]; cbv zeta in H;
    repeat match type of H with (if ?b then _ else _) _ = _ => destruct b end; injection H as <- <-;
    (split; [exact Ct|]); try (destruct Q as ((x & Q) & _); discriminate Q); eauto.
Qed.
Lemma calm_flush_loop u : forall fuel b, pwriter b u -> calm (b_w b) -> (length (b_wbuf b) < fuel)%nat -> exists b', flush_loop fuel b = (Ok tt, b')
  /\ calm (b_w b') /\ exists x, inside (b_w b') u = inside (b_w b) u ++ x.
Proof.
  induction fuel as [|fuel IH]; intros b R C Hf; [lia|]. cbn [flush_loop]. destruct (b_wbuf b) as [|x buf] eqn:Eb.
  { exists b. split; [reflexivity|]. split; [exact C|]. exists []. now rewrite app_nil_r. }
  unfold bind at 1, on_raw. destruct (raw_write (b_raw b) (x :: buf) (b_w b)) as [r1 w1] eqn:E.
  assert (Nn : x :: buf <> []) by discriminate.
  destruct (calm_raw_write _ _ _ _ _ _ (pw_end _ _ R) (pw_wr _ _ R) Nn C E) as (C1 & n & ->).
  destruct (pipe_raw_write _ _ _ _ _ _ (pw_end _ _ R) (pw_wr _ _ R) Nn E) as (K & N & I1).
  destruct (Z.ltb_spec (Z.of_nat (length (x :: buf))) n); [unfold len in N; lia|]. destruct (Z.ltb_spec n 0); [lia|]. cbn [orb]. unfold bind.
  set (b1 := set_wbuf (set_world b w1) (skipn (Z.to_nat n) (b_wbuf (set_world b w1)))) in *.
  assert (K2 : wkept u b b1) by (repeat split; auto; apply K).
  destruct (IH b1 (wkept_writer _ _ _ R K2) C1) as (b' & E' & C' & y & I2).
  { unfold b1. cbn [b_wbuf set_wbuf set_world]. rewrite Eb, skipn_length. cbn [length] in *. lia. }
  exists b'. split; [exact E'|]. split; [exact C'|]. exists (firstn (Z.to_nat n) (x :: buf) ++ y). rewrite I2.
  change (b_w b1) with w1. rewrite I1, app_assoc. reflexivity.
Qed.
Lemma calm_flush b u : pwriter b u -> calm (b_w b) -> exists b' x, flush_unlocked b = (Ok tt, b') /\ calm (b_w b') /\ wkept u b b'
  /\ b_wbuf b' = [] /\ inside (b_w b') u = inside (b_w b) u ++ x /\ x = b_wbuf b.
Proof.
  intros R C. destruct (flush_unlocked b) as [r b'] eqn:E. destruct (pipe_flush _ _ _ _ R E) as (K & F & _ & D).
  unfold flush_unlocked, bind, b_check_closed in E. rewrite (pe_open _ _ _ (pw_end _ _ R)) in E.
  destruct (calm_flush_loop u _ b R C (Nat.lt_succ_diag_r _)) as (b2 & E2 & C2 & x & I2). rewrite E2 in E. injection E as <- <-.
  exists b2, x. repeat (split; [assumption || reflexivity|]). unfold back in F. rewrite I2, D, app_nil_r in F. now apply app_inv_head in F.
Qed.
Lemma calm_write b u d : pwriter b u -> calm (b_w b) -> exists b' x, writer_write d b = (Ok (len d), b') /\ calm (b_w b') /\ wkept u b b'
  /\ inside (b_w b') u = inside (b_w b) u ++ x /\ x ++ b_wbuf b' = b_wbuf b ++ d.
Proof.
  intros R C. destruct (writer_write d b) as [r b'] eqn:E. destruct (pipe_write _ _ _ _ _ R E) as (K & D).
  assert (G : r = Ok (len d) /\ calm (b_w b') /\ exists x, inside (b_w b') u = inside (b_w b) u ++ x).
  { unfold writer_write in E. unfold bind at 1 in E. unfold b_check_closed in E. rewrite (pe_open _ _ _ (pw_end _ _ R)) in E.
    unfold bind at 1 in E.
    match type of E with (match ?x with _ => _ end) = _ => assert (H1 : exists b1 y, x = (Ok tt, b1) /\ calm (b_w b1) /\ pwriter b1 u /\ inside (b_w b1) u = inside (b_w b) u ++ y) end.
    { destruct (_ <? _).
      - destruct (calm_flush b u R C) as (b1 & y & X & C1 & K1 & _ & I1 & _). exists b1, y. repeat (split; [assumption|]). split; [exact (wkept_writer _ _ _ R K1)|exact I1].
      - exists b, []. rewrite app_nil_r. auto. }
    destruct H1 as (b1 & y & X & C1 & R1 & I1). rewrite X in E. unfold bind in E. set (b2 := set_wbuf b1 (b_wbuf b1 ++ d)) in *. cbv zeta in E.
    assert (R2 : pwriter b2 u) by (constructor; apply R1).
    destruct (_ <? _).
    - destruct (calm_flush b2 u R2 C1) as (b3 & z & X3 & C3 & _ & _ & I3 & _). rewrite X3 in E. injection E as <- <-. split; [reflexivity|]. split; [exact C3|].
      exists (y ++ z). rewrite I3. change (b_w b2) with (b_w b1). now rewrite I1, app_assoc.
    - injection E as <- <-. split; [reflexivity|]. split; [exact C1|]. exists y. exact I1. }
  destruct G as (-> & C' & x & I'). destruct D as (_ & D). exists b', x. repeat (split; [assumption || reflexivity|]).
  unfold back in D. rewrite I', <- !app_assoc in D. now apply app_inv_head in D.
Qed.

(** * The reader *)
Section Reader.
  Variable c : tconf.
  Hypothesis G : good_codec (tc_codec c).
  Hypothesis Kr : tc_kind c = BReader.
  Variable u : uid.

  (** Nothing more comes out of the decoder without more bytes. *)
  Definition idem (s : dcore) : Prop := dstep c s [] false = Some ([], s).
  Lemma app_eq_self {A} (a b : list A) : a ++ b = a -> b = [].
  Proof. intros H. rewrite <- (app_nil_r a) in H at 2. now apply app_inv_head in H. Qed.
  Lemma dstep_idem s x o s1 : dstep c s x false = Some (o, s1) -> idem s1.
  Proof.
    intros H. pose proof (dstep_app c G s x [] false o s1 H) as A. rewrite app_nil_r, H in A. unfold idem.
    destruct (dstep c s1 [] false) as [[o2 s2]|]; [|discriminate A]. destruct A as ([= A <-] & _). symmetry in A. now apply app_eq_self in A as ->.
  Qed.
  Lemma dstep_cut s x y o s2 : dstep c s (x ++ y) false = Some (o, s2) ->
    exists o1 s1 o2, dstep c s x false = Some (o1, s1) /\ dstep c s1 y false = Some (o2, s2) /\ o = o1 ++ o2.
  Proof.
    intros H. destruct (dstep_prefix c G s x y false _ H) as (o1 & s1 & E). pose proof (dstep_app c G s x y false o1 s1 E) as A. rewrite H in A.
    destruct (dstep c s1 y false) as [[o2 s3]|] eqn:E2; [|discriminate A]. destruct A as ([= -> ->] & _). eauto 6.
  Qed.
  Lemma dstep_join s x y o1 s1 o2 s2 : dstep c s x false = Some (o1, s1) -> dstep c s1 y false = Some (o2, s2) -> dstep c s (x ++ y) false = Some (o1 ++ o2, s2).
  Proof. intros H H2. pose proof (dstep_app c G s x y false o1 s1 H) as A. rewrite H2 in A. apply A. Qed.

  (** [r]: the text that the bytes available now stand for, beyond the characters decoded already; [s]: the decoder after them. *)
  Record lrep (t : tstate) (r : list Z) (s : dcore) : Prop := mkLrep {
    lr_b : preader (t_b t) u; lr_calm : calm (b_w (t_b t)); lr_used : (t_used t <= length (t_chars t))%nat;
    lr_idem : idem (core c (t_decoder c t)); lr_dec : dstep c (core c (t_decoder c t)) (front (t_b t) u) false = Some (r, s) }.

  Lemma lrep_chars t r s n : lrep t r s -> (n <= length (t_chars t))%nat -> lrep (set_chars t (t_chars t) n) r s.
  Proof. intros [A B C D E] H. split; auto. Qed.
  Lemma lrep_there t r s : lrep t r s -> r <> [] -> front (t_b t) u <> [].
  Proof. intros [_ _ _ D E] H X. rewrite X in E. unfold idem in D. rewrite D in E. injection E as <- _. now apply H. Qed.

  Lemma read_chunk_line t r s : lrep t r s -> t_dec t <> None -> front (t_b t) u <> [] ->
    exists t' r', read_chunk c t = (Ok true, t') /\ lrep t' r' s /\ r = t_chars t' ++ r' /\ t_used t' = 0%nat /\ t_dec t' <> None
      /\ (length (front (t_b t') u) < length (front (t_b t) u))%nat /\ bkept u (t_b t) (t_b t').
  Proof.
    intros R Dn Nf. destruct (t_dec t) as [d|] eqn:Ed; [clear Dn|congruence].
    destruct R as [B Ca U I0 D]. unfold t_decoder in I0, D. rewrite Ed in I0, D.
    unfold read_chunk. rewrite Ed, getstate_core. destruct (sget c (core c d)) as [buf fl].
    assert (Hc : 0 < CHUNK_SIZE) by reflexivity.
    destruct (calm_read1 _ _ _ B Ca Hc) as (ch & b' & E1 & C' & K & F & Ne). rewrite Kr. cbn [b_read1].
    unfold bind at 1. unfold on_b. rewrite E1. cbv beta iota zeta. destruct ch as [|x ch]; [now destruct (Nf (Ne eq_refl))|].
    rewrite F in D. destruct (dstep_cut _ _ _ _ _ D) as (o1 & s1 & r' & D1 & D2 & ->).
    destruct (dec_decode_ok c _ _ _ _ _ D1) as (d' & E3 & Es).
    unfold bind at 1, t_decode. unfold t_decoder. cbn [set_b t_dec]. rewrite Ed, E3. cbv beta iota.
    assert (B' : preader b' u) by exact (bkept_reader _ _ _ B K).
    assert (L : (length (front b' u) < length (front (t_b t) u))%nat) by (rewrite F, app_length; cbn [length]; lia).
    unfold bind, upd_t, ret. cbn [t_telling set_chars set_ratio set_dec set_b].
    destruct (t_telling t); eexists _, r'; (split; [reflexivity|]); (split; [|tcbn; repeat (split; [reflexivity || discriminate || assumption|]); assumption]);
      split; unfold t_decoder; tcbn; auto; try lia; rewrite Es; [exact (dstep_idem _ _ _ _ D1)|exact D2|exact (dstep_idem _ _ _ _ D1)|exact D2].
  Qed.

  Lemma fetch_line : forall fuel t r s, lrep t r s -> t_dec t <> None -> r <> [] -> (length (front (t_b t) u) < fuel)%nat ->
    exists t' r', fetch fuel c t = (Ok tt, t') /\ lrep t' r' s /\ r = t_chars t' ++ r' /\ t_chars t' <> [] /\ t_used t' = 0%nat /\ t_dec t' <> None
      /\ (length (front (t_b t') u) < length (front (t_b t) u))%nat /\ bkept u (t_b t) (t_b t').
  Proof.
    induction fuel as [|fuel IH]; intros t r s R Dn Nr Hf; [lia|]. cbn [fetch].
    destruct (read_chunk_line t r s R Dn (lrep_there _ _ _ R Nr)) as (t1 & r1 & E1 & R1 & Er & U1 & D1 & L1 & K1).
    unfold bind. rewrite E1. cbn [negb]. destruct (t_chars t1) as [|x l] eqn:Ec.
    - cbn in Er. subst r1. destruct (IH t1 r s R1 D1 Nr) as (t2 & r2 & E2 & R2 & Er2 & N2 & U2 & D2 & L2 & K2); [lia|].
      exists t2, r2. repeat (split; [assumption|]). split; [lia|exact (bkept_trans _ _ _ _ K1 K2)].
    - exists t1, r1. rewrite Ec. repeat (split; [reflexivity || assumption || discriminate|]). assumption.
  Qed.

  Lemma chunk_fuel_line t : preader (t_b t) u -> exists n, chunk_fuel t = (Ok n, t) /\ (length (front (t_b t) u) < n)%nat.
  Proof.
    intros R. unfold chunk_fuel, bind, on_b, ret. rewrite (read_fuel_eq _ _ R). eexists. split; [destruct t; reflexivity|].
    unfold front. rewrite app_length. lia.
  Qed.

  Lemma clean_no_cr o r : (readuniversal c = true -> ~ In CR (o ++ r)) -> clean c o r.
  Proof.
    intros H Hu _ E. exfalso. apply (H Hu). apply ends_cr_true in E. rewrite E, !in_app_iff. left. right. now left.
  Qed.
  Lemma first_line_complete nl s : ~ no_ending nl s -> forall L, first_line nl s L -> L <> [].
  Proof. intros H L FL ->. apply first_line_nonempty in FL; [|reflexivity]. subst s. apply H. intros a e r E He. apply ending_nonempty in He. destruct a, e; cbn in *; try discriminate; lia. Qed.

  Lemma tline_loop_line size : size < 0 -> forall fuel t r s line start, lrep t r s -> t_dec t <> None -> t_used t = length (t_chars t) ->
    (start <= length line)%nat -> (length line <= start + t_used t)%nat ->
    skipn (length (t_chars t) - (length line - start)) (t_chars t) = skipn start line ->
    no_ending (tc_newline c) (firstn start line) -> (readuniversal c = true -> ~ In CR (line ++ r)) -> ~ no_ending (tc_newline c) (line ++ r) ->
    (length (front (t_b t) u) < fuel)%nat ->
    exists L t' r', tline_loop fuel c size line start t = (Ok L, t') /\ first_line (tc_newline c) (line ++ r) L /\ lrep t' r' s
      /\ left t' r' = skipn (length L) (line ++ r) /\ bkept u (t_b t) (t_b t').
  Proof.
    intros Hs. induction fuel as [|fuel IH]; intros t r s line start R Dn U L1 L2 Sf N Nc Cm Hf; [lia|].
    cbn [tline_loop]. replace (0 <=? size) with false by (symmetry; apply Z.leb_gt; exact Hs). cbn [andb].
    destruct (find_end c line start) as [e|] eqn:Fe.
    - destruct (find_end_some c line start r e Fe L1 N (clean_no_cr _ _ Nc)) as [FL He].
      unfold rewind_chars, bind, ret. destruct (t_used t <? length line - e)%nat eqn:Lt; [apply Nat.ltb_lt in Lt; lia|]. apply Nat.ltb_ge in Lt.
      eexists _, _, r. split; [reflexivity|]. split; [exact FL|]. split; [apply lrep_chars; [exact R|lia]|].
      split; [|now apply bkept_refl, R]. unfold left. tcbn. rewrite firstn_length, Nat.min_l by lia. rewrite skipn_app. replace (e - length line)%nat with 0%nat by lia. cbn [skipn]. f_equal.
      replace (t_used t - (length line - e))%nat with (length (t_chars t) - (length line - start) + (e - start))%nat by lia.
      rewrite <- skipn_skipn', Sf, skipn_skipn'. f_equal. lia.
    - pose proof (find_end_none c line start Fe N) as Nl. unfold over. replace (0 <=? size) with false by (symmetry; apply Z.leb_gt; exact Hs). cbn [andb].
      destruct (chunk_fuel_line t (lr_b _ _ _ R)) as (f & E1 & Hf1). unfold bind at 1. rewrite E1.
      assert (Nr : r <> []) by (intros ->; rewrite app_nil_r in Cm; now apply Cm).
      destruct (fetch_line f t r s R Dn Nr Hf1) as (t1 & r1 & E2 & R1 & Er & Nn & U1 & D1 & L3 & K1).
      unfold bind at 1. rewrite E2. destruct (t_chars t1) as [|x l] eqn:Ec; [now destruct Nn|]. rewrite <- Ec in *.
      unfold bind at 1, get_chars. rewrite U1. cbn [skipn]. set (t2 := set_chars t1 (t_chars t1) (0 + length (t_chars t1))).
      destruct (IH t2 r1 s (line ++ t_chars t1) (length line)) as (L & t3 & r3 & E4 & FL & R3 & L4 & K3).
      + apply lrep_chars; [exact R1|lia].
      + exact D1.
      + reflexivity.
      + rewrite app_length. lia.
      + rewrite app_length. unfold t2. tcbn. lia.
      + unfold t2. tcbn. rewrite app_length. replace (length (t_chars t1) - (length line + length (t_chars t1) - length line))%nat with 0%nat by lia.
        cbn [skipn]. rewrite skipn_app, skipn_all, Nat.sub_diag. reflexivity.
      + rewrite firstn_app, firstn_all, Nat.sub_diag. cbn [firstn]. rewrite app_nil_r. exact Nl.
      + rewrite <- app_assoc, <- Er. exact Nc.
      + rewrite <- app_assoc, <- Er. exact Cm.
      + change (t_b t2) with (t_b t1). lia.
      + exists L, t3, r3. rewrite <- app_assoc, <- Er in FL, L4. split; [exact E4|]. repeat (split; [assumption|]). exact (bkept_trans _ _ _ _ K1 K3).
  Qed.

  Lemma t_readline_line t r s : lrep t r s -> (readuniversal c = true -> ~ In CR (left t r)) -> ~ no_ending (tc_newline c) (left t r) ->
    exists L t' r', t_readline c None t = (Ok L, t') /\ first_line (tc_newline c) (left t r) L /\ lrep t' r' s
      /\ left t' r' = skipn (length L) (left t r) /\ bkept u (t_b t) (t_b t').
  Proof.
    intros R Nc Cm. unfold t_readline. unfold bind at 1, t_check_closed at 1. rewrite (pe_open _ _ _ (pr_end _ _ (lr_b _ _ _ R))).
    unfold bind at 1, get_chars at 1. pose proof (lr_used _ _ _ R) as Uu.
    set (t1 := set_chars t _ _). unfold bind at 1, t_make_decoder, upd_t. set (t2 := match t_dec t1 with Some _ => t1 | None => _ end).
    assert (R2 : lrep t2 r s /\ t_dec t2 <> None /\ t_chars t2 = t_chars t /\ t_used t2 = length (t_chars t) /\ t_b t2 = t_b t).
    { unfold t2, t1. tcbn. assert (Lu : (t_used t + length (skipn (t_used t) (t_chars t)) = length (t_chars t))%nat) by (rewrite skipn_length; lia).
      destruct R as [A B C D E]. unfold t_decoder in *. destruct (t_dec t) eqn:Ed; tcbn; rewrite Ed || idtac; repeat split; unfold t_decoder; tcbn; rewrite ?Ed; auto; try congruence; try apply A; try lia. }
    destruct R2 as (R2 & D2 & C2 & U2 & B2).
    destruct (chunk_fuel_line t2 (lr_b _ _ _ R2)) as (f & E3 & Hf). unfold bind at 1. rewrite E3.
    destruct (tline_loop_line (-1) ltac:(lia) f t2 r s (skipn (t_used t) (t_chars t)) 0 R2 D2) as (L & t3 & r3 & E4 & FL & R3 & L3 & K3); auto; try lia.
    - congruence.
    - rewrite skipn_length, U2. lia.
    - rewrite skipn_length, C2. cbn [skipn]. f_equal. lia.
    - cbn [firstn]. intros a e x H He. apply ending_nonempty in He. destruct a, e; cbn in *; try discriminate; lia.
    - exists L, t3, r3. rewrite B2 in K3. auto.
  Qed.
End Reader.
