(** Lemmas about readline() and readinto() on buffered streams. *)
From Coq Require Import ZArith List Bool Lia.
From Verif Require Import M_Base M_Registry M_Kernel M_World M_Raw M_Buffered M_BufLines S_Bytes S_Raw S_LockFile S_Buffered S_BufLine
  P_Bytes P_Raw P_Frame P_LockFile P_Buffered P_BufOps P_BufRun.
Import ListNotations.
Open Scope Z_scope.

(** * Slices *)
Lemma slice_prefix c p a b : 0 <= p -> slice_at c p a -> slice_at c p b -> (length a <= length b)%nat -> a = firstn (length a) b.
Proof.
  intros P A B H. apply slice_at_eq in A; [|exact P]. apply slice_at_eq in B; [|exact P]. rewrite B, firstn_firstn, Nat.min_l by exact H. exact A.
Qed.
Lemma newline_len_none l : newline_len l = O -> ~ In 10 l.
Proof.
  induction l as [|x l IH]; intros H; [now cbn|]. cbn [newline_len] in H. destruct (Z.eqb_spec x 10); [discriminate|].
  destruct (newline_len l); [|discriminate]. intros [X|X]; [contradiction|now apply IH].
Qed.
Lemma newline_len_some l m : newline_len l = S m -> (S m <= length l)%nat /\ nth m l 0 = 10 /\ ~ In 10 (firstn m l).
Proof.
  revert m. induction l as [|x l IH]; intros m H; [discriminate|]. cbn [newline_len] in H. destruct (Z.eqb_spec x 10) as [->|N].
  - injection H as <-. cbn. split; [lia|]. auto.
  - destruct (newline_len l) as [|k] eqn:E; [discriminate|]. injection H as <-. destruct (IH k eq_refl) as (A & B & C). cbn [length nth firstn].
    split; [lia|]. split; [exact B|]. intros [X|X]; contradiction.
Qed.
Lemma last_nth (l : list Z) : l <> [] -> last l 0 = nth (length l - 1) l 0.
Proof.
  induction l as [|x l IH]; [congruence|]. intros _. destruct l as [|y l]; [reflexivity|].
  change (last (x :: y :: l) 0) with (last (y :: l) 0). rewrite IH by discriminate. cbn [length]. rewrite !Nat.sub_succ, Nat.sub_0_r. reflexivity.
Qed.
Lemma byte_at_nth l j : 0 <= j -> byte_at l j = nth (Z.to_nat j) l 0.
Proof. intros H. unfold byte_at. destruct (Z.ltb_spec j 0); [lia|reflexivity]. Qed.
Lemma not_in_bytes (l : list Z) : ~ In 10 l -> forall j, 0 <= j < len l -> byte_at l j <> 10.
Proof. intros N j Hj E. apply N. rewrite <- E, byte_at_nth by lia. apply nth_In. unfold len in Hj. lia. Qed.
Lemma byte_at_app1 a b j : 0 <= j < len a -> byte_at (a ++ b) j = byte_at a j.
Proof. intros H. rewrite !byte_at_nth by lia. apply app_nth1. unfold len in H. lia. Qed.
Lemma byte_at_app2 a b j : len a <= j -> byte_at (a ++ b) j = byte_at b (j - len a).
Proof.
  intros H. pose proof (len_nonneg a). rewrite !byte_at_nth by lia. rewrite app_nth2 by (unfold len in *; lia). f_equal. unfold len. lia.
Qed.

(** The rest of the line, from any place. *)
Lemma line_exists c p : 0 <= p -> exists l, line_at c p l.
Proof.
  intros P. set (r := skipn (Z.to_nat p) c).
  assert (Sr : slice_at c p r).
  { pose proof (firstn_skipn_slice c (Z.to_nat p) (length r)) as X. rewrite Z2Nat.id in X by exact P. fold r in X. now rewrite firstn_all in X. }
  destruct (newline_len r) as [|m] eqn:E.
  - exists r. split; [exact Sr|]. split; [intros j Hj; apply (not_in_bytes _ (newline_len_none _ E)); lia|]. left. split; [|exact Sr]. unfold r. now apply skipn_of_nat_len.
  - destruct (newline_len_some _ _ E) as (A & B & C). exists (firstn (S m) r).
    assert (Lf : len (firstn (S m) r) = Z.of_nat (S m)) by (unfold len; rewrite firstn_length; lia).
    split; [now apply slice_first|]. rewrite Lf. split.
    + intros j Hj X. apply C. rewrite byte_at_nth in X by lia. rewrite <- X.
      replace (nth (Z.to_nat j) (firstn (S m) r) 0) with (nth (Z.to_nat j) (firstn m r) 0).
      * apply nth_In. rewrite firstn_length. lia.
      * rewrite <- (firstn_skipn m (firstn (S m) r)). rewrite firstn_firstn, Nat.min_l by lia. rewrite app_nth1; [reflexivity|]. rewrite firstn_length. lia.
    + right. split; [intros X; rewrite X in Lf; rewrite len_nil in Lf; lia|]. rewrite byte_at_nth by lia.
      replace (Z.to_nat (Z.of_nat (S m) - 1)) with m by lia. rewrite <- B.
      rewrite <- (firstn_skipn (S m) r) at 2. rewrite app_nth1; [reflexivity|]. rewrite firstn_length. lia.
Qed.

(** Bytes before a newline are a beginning of the line. *)
Lemma line_prefix c p l a : 0 <= p -> line_at c p l -> slice_at c p a -> ~ In 10 a -> exists r, l = a ++ r.
Proof.
  intros P (Sl & Nl & El) Sa Na.
  assert (Le : (length a <= length l)%nat).
  { destruct (Nat.le_gt_cases (length a) (length l)) as [X|X]; [exact X|exfalso]. destruct El as [[El _]|[Ne El]].
    - pose proof (slice_max _ _ _ P Sa). unfold len in *. lia.
    - pose proof (slice_prefix _ _ _ _ P Sl Sa ltac:(lia)) as Y. assert (0 < len l) by (destruct l; [congruence|rewrite len_cons; pose proof (len_nonneg l); lia]).
      apply (not_in_bytes a Na (len l - 1)); [unfold len in *; lia|]. rewrite <- El. rewrite <- (firstn_skipn (length l) a), <- Y. rewrite byte_at_app1 by lia. reflexivity. }
  exists (skipn (length a) l). rewrite (slice_prefix _ _ _ _ P Sa Sl Le) at 1. now rewrite firstn_skipn.
Qed.
Lemma line_whole c p l a : 0 <= p -> line_at c p l -> slice_at c p (a ++ [10]) -> ~ In 10 a -> l = a ++ [10].
Proof.
  intros P Hl Sa Na. assert (S1 : slice_at c p a). { pose proof (slice_first c p (length a) _ Sa) as X. now rewrite firstn_app, firstn_all, Nat.sub_diag, app_nil_r in X. }
  destruct (line_prefix _ _ _ _ P Hl S1 Na) as (r & ->). destruct Hl as (Sl & Nl & El). pose proof (len_nonneg a) as La.
  assert (Lc : p + len a + 1 <= len c). { destruct Sa as [[X|X] _]; [destruct a; discriminate|]. rewrite len_app in X. change (len [10]) with 1 in X. lia. }
  destruct r as [|x r].
  - exfalso. rewrite app_nil_r in *. destruct El as [[El _]|[Ne El]]; [lia|]. apply (not_in_bytes a Na (len a - 1)); [|exact El].
    destruct a; [congruence|]. rewrite len_cons. pose proof (len_nonneg a). lia.
  - assert (x = 10) as ->.
    { assert (X : byte_at (a ++ x :: r) (len a) = byte_at (a ++ [10]) (len a)).
      { destruct Sl as [_ Sl], Sa as [_ Sa]. rewrite Sl, Sa; [reflexivity| |]; rewrite len_app; [change (len [10]) with 1|rewrite len_cons; pose proof (len_nonneg r)]; lia. }
      rewrite !byte_at_app2, Z.sub_diag in X by lia. exact X. }
    destruct r as [|y r]; [reflexivity|exfalso]. apply (Nl (len a)); [rewrite len_app, !len_cons; pose proof (len_nonneg r); lia|].
    rewrite byte_at_app2, Z.sub_diag by lia. reflexivity.
Qed.

(** * readline() *)
Lemma readline_loop_ok k size q l : can_read k = true -> 0 <= q -> forall fuel b o i c res,
  rep k b o i c (q + len res) -> tameb False b o -> no_epipe (b_w b) -> line_at c q l ->
  slice_at c q res -> ~ In 10 res -> (0 <= size -> len res <= Z.max 0 (2 * size - 1)) -> (Z.to_nat (len c - (q + len res)) < fuel)%nat ->
  exists d b' o' i', readline_loop fuel k size res b = (Ok d, b') /\ evolves b b' o o' /\ rep k b' o' i' c (q + len d) /\ slice_at c q d
    /\ line_got size l d.
Proof.
  intros K Q. induction fuel as [|fuel IH]; intros b o i c res R T Hp Hl Sr Nr Hsz Fu; [lia|]. cbn [readline_loop].
  fold (len res). pose proof (len_nonneg res) as Lr.
  destruct (line_prefix _ _ _ _ Q Hl Sr Nr) as (rest & El).
  destruct ((size <? 0) || (len res <? size)) eqn:Ec.
  2:{ apply orb_false_iff in Ec as [E1 E2]. apply Z.ltb_ge in E1, E2. exists res, b, o, i. split; [reflexivity|]. split; [auto with frame|]. split; [exact R|].
      split; [exact Sr|]. exists rest. split; [exact El|]. split; [lia|]. intros _. split; [lia|apply Hsz; lia]. }
  assert (Hs : size < 0 \/ len res < size) by (apply orb_true_iff in Ec as [E|E]; apply Z.ltb_lt in E; auto).
  destruct (b_peek_ok k b o i c (q + len res) 1 R T Hp K) as (ah & b1 & o1 & i1 & E1 & V1 & R1 & W1 & Sa & Ha).
  unfold bind at 1. rewrite E1. cbv zeta. set (n := match ah with [] => 1 | _ => _ end).
  assert (T1 := tameb_evolves _ _ _ _ _ V1 T). assert (P1 := no_epipe_evolves _ _ _ _ V1 Hp).
  assert (Hn : 1 <= n /\ (ah <> [] -> n <= len ah) /\ (0 <= size -> n <= size) /\ (size < 0 -> ah <> [] -> newline_len ah = O -> n = len ah)
             /\ (forall m, newline_len ah = S m -> n <= Z.of_nat (S m))).
  { unfold n. destruct ah as [|x ah'].
    - cbn [newline_len]. split; [lia|]. split; [congruence|]. split; [lia|]. split; [congruence|]. discriminate.
    - set (a := x :: ah') in *. assert (La : 1 <= len a) by (unfold a; rewrite len_cons; pose proof (len_nonneg ah'); lia).
      fold (len a). destruct (newline_len a) as [|m] eqn:En.
      + split; [|split; [|split; [|split; [|discriminate]]]]; intros; destruct (Z.leb_spec 0 size); try lia.
      + destruct (newline_len_some _ _ En) as (A & _ & _). fold (len a) in *.
        split; [|split; [|split; [|split; [discriminate|]]]]; intros; destruct (Z.leb_spec 0 size); unfold len in *; try lia; injection H as <-; lia. }
  clearbody n. destruct Hn as (Hn1 & Hn2 & Hn3 & Hn4 & Hn5).
  unfold bind. destruct (b_read_ok k b1 o1 i1 c (q + len res) (Some n) R1 T1 P1 K ltac:(cbn; lia)) as (r & b2 & o2 & i2 & E2 & V2 & (d & -> & Gd & Sd & R2 & W2)).
  rewrite E2. cbn [read_good] in Gd. destruct (Z.eqb_spec n (-1)); [lia|].
  assert (V : evolves b b2 o o2) by (eapply evolves_trans; eauto).
  pose proof (rp_nn _ _ _ _ _ _ R) as Pn. pose proof (slice_max _ _ _ Pn Sa) as Ma.
  assert (S2 : slice_at c q (res ++ d)) by (apply slice_app; auto).
  rewrite <- Z.add_assoc, <- len_app in R2.
  destruct d as [|x d'] eqn:Ed.
  - (* the end of the file *)
    rewrite len_nil in Gd. exists res, b2, o2, i2. split; [reflexivity|]. split; [exact V|]. split; [rewrite app_nil_r in R2; exact R2|]. split; [exact Sr|].
    assert (rest = []) as ->.
    { destruct Hl as (Sl & _ & _). pose proof (slice_max _ _ _ Q Sl) as X. rewrite El, len_app in X. destruct rest; [reflexivity|]. rewrite len_cons in X. pose proof (len_nonneg rest). lia. }
    exists []. rewrite app_nil_r in El. subst l. rewrite app_nil_r. split; [reflexivity|]. split; [auto|]. intros Hz. split; [lia|now apply Hsz].
  - assert (Nd : ah <> []). { intros ->. specialize (Ha eq_refl). rewrite len_cons in Gd. pose proof (len_nonneg d'). lia. }
    rewrite <- Ed in *. assert (Ld : len d = n). { specialize (Hn2 Nd). lia. }
    assert (Dn : d = firstn (Z.to_nat n) ah).
    { rewrite <- Ld. unfold len. rewrite Nat2Z.id. apply (slice_prefix _ _ _ _ Pn Sd Sa). specialize (Hn2 Nd). unfold len in *. lia. }
    assert (Nd2 : d <> []) by (rewrite Ed; discriminate).
    assert (Hlast : last d 0 = nth (length d - 1) d 0) by now apply last_nth.
    assert (Split : (exists a, d = a ++ [10] /\ ~ In 10 a) \/ ~ In 10 d).
    { destruct (newline_len ah) as [|m] eqn:En.
      - right. intros X. apply (newline_len_none _ En). rewrite <- (firstn_skipn (Z.to_nat n) ah), <- Dn. apply in_or_app. now left.
      - destruct (newline_len_some _ _ En) as (A & B & C). specialize (Hn5 _ eq_refl). destruct (Z.eq_dec n (Z.of_nat (S m))) as [Hm|Hm].
        + left. exists (firstn m ah). split; [|exact C]. rewrite Dn, Hm, Nat2Z.id. rewrite <- B. clear -A.
          revert ah A. induction m as [|m IHm]; intros [|y l] A; cbn in *; try lia; [reflexivity|]. f_equal. apply IHm. lia.
        + right. intros X. apply C. rewrite Dn in X. replace (firstn m ah) with (firstn (Z.to_nat n) ah ++ skipn (Z.to_nat n) (firstn m ah)); [apply in_or_app; now left|].
          rewrite <- (firstn_skipn (Z.to_nat n) (firstn m ah)) at 2. f_equal. rewrite firstn_firstn. f_equal. lia. }
    assert (Bd : 0 <= size -> len (res ++ d) <= Z.max 0 (2 * size - 1)). { intros Hz. rewrite len_app. specialize (Hn3 Hz). lia. }
    destruct (Z.eqb_spec (last d 0) 10) as [E10|E10].
    + destruct Split as [(a & Da & Na)|X].
      2:{ exfalso. apply X. rewrite <- E10, Hlast. apply nth_In. destruct d; [congruence|cbn; lia]. }
      assert (l = res ++ d) as ->.
      { rewrite Da, app_assoc in S2 |- *. apply (line_whole _ _ _ _ Q Hl S2). intros X. apply in_app_or in X as [X|X]; contradiction. }
      rewrite Ed. cbv iota. rewrite <- Ed. rewrite E10, Z.eqb_refl || idtac.
      exists (res ++ d), b2, o2, i2. split; [reflexivity|]. split; [exact V|]. split; [exact R2|]. split; [exact S2|].
      exists []. rewrite app_nil_r. split; [reflexivity|]. split; [auto|]. intros Hz. split; [lia|now apply Bd].
    + assert (Nd3 : ~ In 10 d). { destruct Split as [(a & Da & Na)|X]; [|exact X]. exfalso. apply E10. rewrite Da. apply last_last. }
      destruct (IH b2 o2 i2 c (res ++ d) R2 (tameb_evolves _ _ _ _ _ V T) (no_epipe_evolves _ _ _ _ V Hp) Hl S2) as (d2 & b3 & o3 & i3 & E3 & V3 & X); auto.
      { intros X. apply in_app_or in X as [X|X]; contradiction. }
      { rewrite len_app. specialize (Hn2 Nd). lia. }
      exists d2, b3, o3, i3. split; [exact E3|]. split; [eapply evolves_trans; eauto|exact X].
Qed.

Lemma readline_ok k b o i c p size l : rep k b o i c p -> tameb False b o -> no_epipe (b_w b) -> can_read k = true -> line_at c p l ->
  exists d b' o' i', b_readline k size b = (Ok d, b') /\ evolves b b' o o' /\ rep k b' o' i' c (p + len d) /\ slice_at c p d /\ line_got size l d.
Proof.
  intros R T Hp K Hl.
  assert (E0 : b_readline k size b = readline_loop (S (length (n_data i)) + length (unread b) + length (b_wbuf b) + 1)%nat k size [] b).
  { pose proof (read_fuel_live b o i (rp_live _ _ _ _ _ _ R)) as X. unfold b_readline. destruct k; [|discriminate|]; unfold bind; now rewrite X. }
  rewrite E0. pose proof (rp_nn _ _ _ _ _ _ R) as Pn. pose proof (len_nonneg (b_wbuf b)) as Lw. pose proof (len_nonneg (unread b)) as Lu.
  pose proof (epos_nn b _ _ _ _ (rp_live _ _ _ _ _ _ R)) as Po.
  destruct (readline_loop_ok k size p l K Pn (S (length (n_data i)) + length (unread b) + length (b_wbuf b) + 1)%nat b o i c [])
    as (d & b' & o' & i' & E & X); auto.
  - now rewrite len_nil, Z.add_0_r.
  - apply slice_nil.
  - change (@len Z []) with 0. lia.
  - change (@len Z []) with 0. rewrite Z.add_0_r. destruct (b_wbuf b) as [|x l0] eqn:W.
    + destruct (rep_flat _ _ _ _ _ _ R W) as [Hc _]. rewrite <- Hc. unfold len. lia.
    + assert (Wn : b_wbuf b <> []) by congruence. rewrite <- W in Lw |- *. clear W. pose proof (rp_excl _ _ _ _ _ _ R Wn) as Er. pose proof (rp_p _ _ _ _ _ _ R) as Ep.
      rewrite (unread_nil _ Er), len_nil in Ep.
      assert (len c <= Z.max (len (n_data i)) (epos b o i + len (b_wbuf b))).
      { destruct (stored_write (n_data i) (epos b o i) (b_wbuf b) Po) as (_ & Y & _). rewrite (rp_c _ _ _ _ _ _ R), Y by exact Wn. lia. }
      unfold len in *. lia.
  - exists d, b', o', i'. split; [exact E|exact X].
Qed.

(** * readinto() *)
Definition fullio (w : world) : Prop := forall e, In e (w_io w) -> e = IoFull.
Lemma fullio_evolves b b' o o' : evolves b b' o o' -> fullio (b_w b) -> fullio (b_w b').
Proof. intros V F e H. apply F, (fr_io _ _ _ _ (ev_frame _ _ _ _ V)), H. Qed.

Lemma raw_reads f w o i n : live f w o i -> 0 <= n -> tame_rd False f w o -> f_readable f = true ->
  exists d, let w' := upd_fd (set_io w (tl (w_io w))) (fd_of f) (Some (set_pos o (o_pos o + len d))) in
    raw_read f (Some n) w = (Ok (Some d), w') /\ raw_readinto f n w = (Ok d, w')
    /\ len d <= n /\ slice_at (n_data i) (o_pos o) d /\ (d = [] -> n = 0 \/ len (n_data i) <= o_pos o)
    /\ (fullio w -> len d = Z.min n (Z.max 0 (len (n_data i) - o_pos o))).
Proof.
  intros L Hn [[]|(Io & Rd)] Rf. specialize (Rd Rf). unfold raw_read, raw_readinto, bind.
  rewrite (check_closed_live _ _ _ _ L), (check_readable_live _ _ _ _ L), Rf.
  destruct (Z.ltb_spec n 0); [lia|]. unfold inner_read. rewrite (sys_read_live _ _ _ _ _ L Hn Rd).
  pose proof (lv_pos _ _ _ _ L) as Po.
  destruct (hd IoFull (w_io w)) as [|k|x] eqn:E.
  - exists (read_data o i IoFull n). destruct (read_data_props o i IoFull n Hn Po) as (A & B & C). split; [reflexivity|]. split; [reflexivity|].
    split; [exact A|]. split; [exact B|]. split; [exact C|]. intros _. unfold read_data. rewrite len_firstn, skipn_of_nat_len by exact Po. cbn [io_count]. lia.
  - exists (read_data o i (IoShort k) n). destruct (read_data_props o i (IoShort k) n Hn Po) as (A & B & C). split; [reflexivity|]. split; [reflexivity|].
    split; [exact A|]. split; [exact B|]. split; [exact C|]. intros F. exfalso. assert (IoShort k = IoFull); [|discriminate].
    apply F. destruct (w_io w); [discriminate|]. cbn in E. subst. now left.
  - exfalso. apply (Io x). destruct (w_io w); [discriminate|]. cbn in E. subst. now left.
Qed.

Lemma peek_full k b o i c p : rep k b o i c p -> tameb False b o -> no_epipe (b_w b) -> can_read k = true -> b_wbuf b = [] -> unread b = [] ->
  fullio (b_w b) -> forall d b', peek_unlocked 1 b = (Ok d, b') -> len d = Z.min (b_size b) (Z.max 0 (len c - p)).
Proof.
  intros R T Hp K W U F d b'. pose proof (rep_flat _ _ _ _ _ _ R W) as [Hc Ho]. rewrite U, len_nil, Z.add_0_r in Ho.
  pose proof (rp_size _ _ _ _ _ _ R) as Bs. unfold peek_unlocked, bind. rewrite U. cbn [length]. change (Z.of_nat 0) with 0. rewrite Z.sub_0_r.
  change (0 <=? 0) with true. rewrite orb_true_r. unfold on_raw.
  destruct (raw_reads (b_raw b) (b_w b) o i (b_size b) (rp_live _ _ _ _ _ _ R) ltac:(lia) (tame_tame_rd _ _ _ _ T) (rp_rd _ _ _ _ _ _ R K))
    as (x & E & _ & A & B & C & D). rewrite E. rewrite <- Hc, <- Ho. specialize (D F). destruct x as [|y x].
  - unfold ret. intros H. apply (f_equal fst) in H. cbn [fst] in H. injection H as <-. change (unread (set_world b _)) with (unread b). rewrite U. exact D.
  - intros H. apply (f_equal fst) in H. cbn [fst] in H. injection H as <-. unfold unread at 1. cbn [set_rbuf b_rbuf b_rpos skipn].
    change (unread (set_world b _)) with (unread b). rewrite U. exact D.
Qed.

(** What makes readinto safe. *)
Definition into_safe (n : Z) (read1 : bool) (out : list Z) (b : bstate) (o : ofd) (c : list Z) : Prop :=
  (read1 = true /\ out = [])
  \/ (fullio (b_w b) /\ ((out = [] /\ (unread b = [] \/ n <= len (unread b) \/ len c <= o_pos o))
                        \/ (unread b = [] /\ (len c <= o_pos o \/ len out = n)))).

Definition into_done (k : bkind) (n : Z) (read1 : bool) (q : Z) (c : list Z) (i : inode) (b : bstate) (o : ofd) (d : list Z) (b' : bstate) : Prop :=
  exists o', evolves b b' o o' /\ rep k b' o' i c (q + len d) /\ b_wbuf b' = [] /\ slice_at c q d /\ len d <= n
    /\ (read1 = false -> len d = Z.min n (Z.max 0 (len c - q))) /\ (d = [] -> n = 0 \/ len c <= q).

Lemma into_done_mono k n read1 q c i b o b1 o1 d b' : evolves b b1 o o1 -> into_done k n read1 q c i b1 o1 d b' -> into_done k n read1 q c i b o d b'.
Proof. intros V (o' & V' & X). exists o'. split; [eapply evolves_trans; eauto|exact X]. Qed.

Lemma readinto_loop_ok k n (read1 : bool) q : can_read k = true -> 0 <= q -> 0 < n -> forall fuel b o i c out,
  rep k b o i c (q + len out) -> tameb False b o -> no_epipe (b_w b) -> b_wbuf b = [] ->
  slice_at c q out -> len out <= n -> (Z.to_nat (len c - o_pos o) < fuel)%nat ->
  exists r b', readinto_loop fuel n read1 out b = (r, b') /\
    ((exists d, r = Ok d /\ into_done k n read1 q c i b o d b') \/ (r = Err EValue /\ ~ into_safe n read1 out b o c)).
Proof.
  intros K Q Hn. induction fuel as [|fuel IH]; intros b o i c out R T Hp W So Lo Fu; [lia|]. cbn [readinto_loop]. fold (len out).
  pose proof (len_nonneg out) as Lo0. pose proof (len_nonneg (unread b)) as Lu.
  pose proof (slice_max _ _ _ Q So) as Mo.
  destruct (Z.ltb_spec (len out) n) as [Lt|Ge].
  2:{ eexists _, _. split; [reflexivity|]. left. exists out. split; [reflexivity|]. exists o. split; [auto with frame|]. split; [exact R|]. split; [exact W|].
      split; [exact So|]. split; [lia|]. split; [lia|]. intros ->. rewrite len_nil in *. lia. }
  cbv zeta. fold (len (unread b)). set (avail := Z.min (len (unread b)) n).
  destruct (Z.ltb_spec (n - len out) avail) as [Bad|Fit].
  { eexists _, _. split; [reflexivity|]. right. split; [reflexivity|]. intros [(_ & ->)|(_ & [(-> & _)|(X & _)])].
    - rewrite len_nil in Bad. unfold avail in Bad. lia.
    - rewrite len_nil in Bad. unfold avail in Bad. lia.
    - unfold avail in Bad. rewrite X in Bad. change (@len Z []) with 0 in Bad. lia. }
  assert (Ha : 0 <= avail <= len (unread b) /\ avail <= n) by (unfold avail; lia).
  set (b1 := set_rbuf b (b_rbuf b) (b_rpos b + Z.to_nat avail)).
  set (out1 := out ++ firstn (Z.to_nat avail) (unread b)).
  assert (L1 : len out1 = len out + avail). { unfold out1. rewrite len_app, len_firstn. lia. }
  assert (R1 : rep k b1 o i c (q + len out1)).
  { pose proof (rep_consume k b o i c _ (Z.to_nat avail) R ltac:(unfold len in *; lia) W) as X.
    rewrite Z2Nat.id in X by lia. replace (q + len out1) with (q + len out + avail) by lia. exact X. }
  assert (V1 : evolves b b1 o o) by (apply evolves_rbuf, sameo_refl).
  assert (S1 : slice_at c q out1). { apply slice_app; [lia|exact So|]. apply slice_first. apply (rp_slice _ _ _ _ _ _ R). }
  assert (T1 : tameb False b1 o) by exact T. assert (P1 : no_epipe (b_w b1)) by exact Hp. assert (W1 : b_wbuf b1 = []) by exact W.
  pose proof (slice_max _ _ _ Q S1) as M1.
  fold (len out1).
  destruct (negb (avail =? 0) && (len out1 =? n)) eqn:Ed.
  { apply andb_true_iff in Ed as [_ Ed]. apply Z.eqb_eq in Ed. eexists _, _. split; [reflexivity|]. left. exists out1. split; [reflexivity|].
    exists o. split; [exact V1|]. split; [exact R1|]. split; [exact W1|]. split; [exact S1|]. split; [lia|]. split; [lia|]. intros X. rewrite X, len_nil in *. lia. }
  assert (U1 : unread b1 = [] /\ len out1 < n).
  { assert (Hc : avail = len (unread b) /\ len out1 < n).
    { apply andb_false_iff in Ed as [Ed|Ed].
      - apply negb_false_iff, Z.eqb_eq in Ed. unfold avail in *. lia.
      - apply Z.eqb_neq in Ed. unfold avail in *. lia. }
    destruct Hc as [Hc Hl]. split; [|exact Hl]. unfold b1, unread. cbn [set_rbuf b_rbuf b_rpos].
    apply skipn_all2. unfold avail in Hc. pose proof (unread_len b (rp_rpos _ _ _ _ _ _ R)). unfold len in *. lia. }
  destruct U1 as [U1 L1n]. destruct (rep_flat _ _ _ _ _ _ R1 W1) as [Hc Ho]. rewrite U1, len_nil, Z.add_0_r in Ho.
  assert (Eofdone : len c <= o_pos o -> forall b2 o2, evolves b1 b2 o o2 -> rep k b2 o2 i c (q + len out1) -> b_wbuf b2 = [] -> into_done k n read1 q c i b o out1 b2).
  { intros He b2 o2 V2 R2 W2. exists o2. split; [eapply evolves_trans; eauto|]. split; [exact R2|]. split; [exact W2|]. split; [exact S1|].
    split; [lia|]. split; [lia|]. intros X. rewrite X, len_nil in *. lia. }
  assert (Out1 : forall b2 o2, evolves b1 b2 o o2 -> rep k b2 o2 i c (q + len out1) -> b_wbuf b2 = [] -> out1 <> [] -> read1 = true -> into_done k n read1 q c i b o out1 b2).
  { intros b2 o2 V2 R2 W2 N Hr. exists o2. split; [eapply evolves_trans; eauto|]. split; [exact R2|]. split; [exact W2|]. split; [exact S1|].
    split; [lia|]. split; [congruence|]. intros X. congruence. }
  set (room := n - len out1). fold (len (unread b1)) in *.
  change (b_size b) with (b_size b1).
  destruct (Z.ltb_spec (b_size b1) room) as [Big|Small].
  - (* the rest is read straight into the caller's buffer *)
    unfold bind, on_raw.
    destruct (raw_reads (b_raw b1) (b_w b1) o i room (rp_live _ _ _ _ _ _ R1) ltac:(unfold room; lia) (tame_tame_rd _ _ _ _ T1) (rp_rd _ _ _ _ _ _ R1 K))
      as (d & _ & E & A & B & C & D).
    rewrite E. set (w2 := upd_fd _ _ _). set (o2 := set_pos o (o_pos o + len d)). pose proof (len_nonneg d) as Ld. pose proof (lv_pos _ _ _ _ (rp_live _ _ _ _ _ _ R1)) as Po.
    assert (L2 : live (b_raw b1) w2 o2 i) by (unfold w2, o2; apply live_pos; [now apply live_io; apply (rp_live _ _ _ _ _ _ R1)|lia]).
    assert (V2 : evolves b1 (set_world b1 w2) o o2).
    { apply evolves_world; [apply sameo_pos|]. eapply frame_trans; [apply frame_io|apply frame_fd]. }
    rewrite Hc in B, C, D. rewrite Ho in B.
    assert (R2 : rep k (set_world b1 w2) o2 i c (q + len (out1 ++ d))).
    { destruct R1. constructor; cbn [set_world b_raw b_w b_size b_rbuf b_rpos b_wbuf]; auto.
      - now rewrite W1, !write_at_nil.
      - rewrite epos_clean by exact W1. change (unread (set_world b1 w2)) with (unread b1). rewrite U1, W1, len_nil, len_app. unfold o2. cbn [o_pos set_pos]. lia.
      - rewrite len_app. lia.
      - change (unread (set_world b1 w2)) with (unread b1). rewrite U1. apply slice_nil. }
    assert (S2 : slice_at c q (out1 ++ d)) by (apply slice_app; auto).
    destruct d as [|x d0] eqn:Edd.
    + destruct (C eq_refl) as [X|X]; [unfold room in X; lia|]. eexists _, _. split; [reflexivity|]. left. exists out1. split; [reflexivity|].
      apply (Eofdone X _ o2 V2); [now rewrite app_nil_r in R2|exact W1].
    + rewrite <- Edd in *. assert (Ne : out1 ++ d <> []) by (rewrite Edd; destruct out1; discriminate). assert (0 < len d) by (rewrite Edd, len_cons; pose proof (len_nonneg d0); lia).
      assert (Hn2 : len (out1 ++ d) <= n) by (rewrite len_app; unfold room in A; lia).
      destruct (is_nil (out1 ++ d)) eqn:En; [destruct (out1 ++ d); [congruence|discriminate]|].
      destruct read1 eqn:Er; cbn [andb negb].
      * eexists _, _. split; [reflexivity|]. left. exists (out1 ++ d). split; [reflexivity|]. exists o2. split; [eapply evolves_trans; eauto|].
        split; [exact R2|]. split; [exact W1|]. split; [exact S2|]. split; [exact Hn2|]. split; [discriminate|]. intros X. congruence.
      * destruct (IH (set_world b1 w2) o2 i c (out1 ++ d) R2 (tameb_evolves _ _ _ _ _ V2 T1) (no_epipe_evolves _ _ _ _ V2 P1) W1 S2 Hn2) as (r & b' & Er' & X).
        { unfold o2. cbn [o_pos set_pos]. rewrite <- Edd. pose proof (slice_max _ _ _ Q S2) as Y. rewrite len_app in Y. lia. }
        exists r, b'. split; [exact Er'|]. destruct X as [(y & -> & X)|(-> & X)].
        { left. exists y. split; [reflexivity|]. eapply into_done_mono; [|exact X]. eapply evolves_trans; eauto. }
        right. split; [reflexivity|]. intros G. apply X. right. destruct G as [(Hf & _)|(Hf & G)]; [discriminate|].
        split; [now apply (fullio_evolves _ _ _ _ V2)|]. right. split; [exact U1|]. rewrite len_app. unfold o2. cbn [o_pos set_pos]. rewrite <- Edd.
        specialize (D Hf). unfold room in D. lia.
  - destruct (negb (read1 && negb (is_nil out1))) eqn:En.
    + unfold bind. destruct (peek_ok k b1 o i c (q + len out1) 1 R1 T1 P1 K W1) as (d & b2 & o2 & E2 & V2 & R2 & W2 & Ud & Hd). rewrite E2.
      destruct (rep_flat _ _ _ _ _ _ R2 W2) as [_ Ho2].
      destruct d as [|x d0] eqn:Edd.
      * eexists _, _. split; [reflexivity|]. left. exists out1. split; [reflexivity|]. apply (Eofdone ltac:(rewrite Ho; now apply Hd) _ o2 V2 R2 W2).
      * apply negb_true_iff in En. rewrite En.
        assert (Ld : 0 < len (unread b2)) by (rewrite <- Ud, len_cons; pose proof (len_nonneg d0); lia).
        destruct (IH b2 o2 i c out1 R2 (tameb_evolves _ _ _ _ _ V2 T1) (no_epipe_evolves _ _ _ _ V2 P1) W2 S1 ltac:(lia)) as (r & b' & Er' & X).
        { pose proof (slice_max _ _ _ (rp_nn _ _ _ _ _ _ R2) (rp_slice _ _ _ _ _ _ R2)). lia. }
        exists r, b'. split; [exact Er'|]. destruct X as [(y & -> & X)|(-> & X)].
        { left. exists y. split; [reflexivity|]. eapply into_done_mono; [|exact X]. eapply evolves_trans; eauto. }
        right. split; [reflexivity|]. intros G. apply X. destruct G as [(Hr & _)|(Hf & G)].
        { left. split; [exact Hr|]. rewrite Hr in En. cbn [andb] in En. apply negb_false_iff in En. destruct out1; [reflexivity|discriminate]. }
        right. split; [now apply (fullio_evolves _ _ _ _ V2), (fullio_evolves _ _ _ _ V1)|].
        pose proof (peek_full k b1 o i c _ R1 T1 P1 K W1 U1 Hf _ _ E2) as Pf. rewrite Ud in Pf.
        destruct G as [(-> & [Ue|[Ue|Ue]])|(Ue & [Ue2|Ue2])].
        -- left. assert (avail = 0) by (unfold avail; rewrite Ue, len_nil; lia). assert (Z0 : len out1 = 0) by (rewrite L1, len_nil; lia).
           split; [destruct out1; [reflexivity|rewrite len_cons in Z0; pose proof (len_nonneg out1); lia]|]. right. unfold room in Small. lia.
        -- exfalso. rewrite len_nil in *. unfold avail in *. lia.
        -- exfalso. lia.
        -- exfalso. lia.
        -- exfalso. lia.
    + apply negb_false_iff in En. rewrite En. apply andb_true_iff in En as [Er En]. apply negb_true_iff in En.
      eexists _, _. split; [reflexivity|]. left. exists out1. split; [reflexivity|]. apply (Out1 b1 o); auto with frame. intros X. rewrite X in En. discriminate.
Qed.

Lemma readinto_ok k b o i c p n (read1 : bool) : rep k b o i c p -> tameb False b o -> no_epipe (b_w b) -> can_read k = true -> 0 <= n ->
  exists r b' b1 o1 i1, b_readinto k n read1 b = (r, b') /\ evolves b b1 o o1 /\ rep k b1 o1 i1 c p /\ b_rbuf b1 = b_rbuf b /\
    ((exists d, r = Ok d /\ into_done k n read1 p c i1 b1 o1 d b') \/ (r = Err EValue /\ ~ into_safe n read1 [] b1 o1 c)).
Proof.
  intros R T Hp K Hn.
  assert (E0 : b_readinto k n read1 b = (match k with BRandom => flush_unlocked ;; reader_readinto n read1 | _ => reader_readinto n read1 end) b).
  { destruct k; [reflexivity|discriminate|reflexivity]. }
  assert (X : exists b1 o1 i1, (match k with BRandom => flush_unlocked ;; reader_readinto n read1 | _ => reader_readinto n read1 end) b = reader_readinto n read1 b1
    /\ rep k b1 o1 i1 c p /\ evolves b b1 o o1 /\ b_wbuf b1 = [] /\ b_rbuf b1 = b_rbuf b).
  { destruct k; [|discriminate|].
    - exists b, o, i. split; [reflexivity|]. split; [exact R|]. split; [auto with frame|]. split; [|reflexivity]. apply (rp_nowr _ _ _ _ _ _ R eq_refl).
    - destruct (flush_ok False BRandom b o i c p R T) as (r & b1 & o1 & i1 & E & [R1 V1 Q1 _ _ [(-> & W)|([] & _)]]).
      exists b1, o1, i1. unfold bind. rewrite E. auto. }
  destruct X as (b1 & o1 & i1 & E1 & R1 & V1 & W1 & Q1). rewrite E0, E1.
  unfold reader_readinto, bind. rewrite (check_closed_rep _ _ _ _ _ _ R1).
  destruct (Z.eqb_spec n 0) as [->|Nz].
  - exists (Ok []), b1, b1, o1, i1. split; [reflexivity|]. split; [exact V1|]. split; [exact R1|]. split; [exact Q1|]. left. exists []. split; [reflexivity|].
    exists o1. rewrite len_nil, Z.add_0_r. split; [auto with frame|]. split; [exact R1|]. split; [exact W1|]. split; [apply slice_nil|]. split; [lia|]. split; [lia|auto].
  - rewrite (read_fuel_live _ _ _ (rp_live _ _ _ _ _ _ R1)). destruct (rep_flat _ _ _ _ _ _ R1 W1) as [Hc Ho].
    pose proof (lv_pos _ _ _ _ (rp_live _ _ _ _ _ _ R1)) as Po.
    destruct (readinto_loop_ok k n read1 p K (rp_nn _ _ _ _ _ _ R1) ltac:(lia) (2 * S (length (n_data i1)) + 2)%nat b1 o1 i1 c [])
      as (r & b' & E & X); auto.
    + now rewrite len_nil, Z.add_0_r.
    + apply (tameb_evolves _ _ _ _ _ V1 T).
    + apply (no_epipe_evolves _ _ _ _ V1 Hp).
    + apply slice_nil.
    + rewrite <- Hc. unfold len. lia.
    + exists r, b', b1, o1, i1. auto 8.
Qed.

(** * readlines(), writelines() *)
(** How many bytes may be left. *)
Lemma rep_left k b o i c p : rep k b o i c p -> (Z.to_nat (len c - p) <= length (n_data i))%nat.
Proof.
  intros R. pose proof (rp_nn _ _ _ _ _ _ R) as Pn. pose proof (epos_nn b _ _ _ _ (rp_live _ _ _ _ _ _ R)) as Po. destruct (b_wbuf b) as [|x l0] eqn:W.
  - destruct (rep_flat _ _ _ _ _ _ R W) as [Hc _]. rewrite <- Hc. unfold len. lia.
  - assert (Wn : b_wbuf b <> []) by congruence. clear W. pose proof (rp_excl _ _ _ _ _ _ R Wn) as Er. pose proof (rp_p _ _ _ _ _ _ R) as Ep.
    rewrite (unread_nil _ Er) in Ep. change (@len Z []) with 0 in Ep.
    assert (len c <= Z.max (len (n_data i)) (epos b o i + len (b_wbuf b))).
    { destruct (stored_write (n_data i) (epos b o i) (b_wbuf b) Po) as (_ & Y & _). rewrite (rp_c _ _ _ _ _ _ R), Y by exact Wn. lia. }
    unfold len in *. lia.
Qed.
Lemma lines_from_snoc c p ls l : lines_from c p ls -> line_at c (p + len (concat ls)) l -> l <> [] -> lines_from c p (ls ++ [l]).
Proof.
  intros H. induction H as [p|p x ls Hx Nx H IH]; cbn [concat app]; intros Hl Nl.
  - change (@len Z []) with 0 in Hl. rewrite Z.add_0_r in Hl. constructor; auto. constructor.
  - constructor; auto. apply IH; [|exact Nl]. rewrite len_app, Z.add_assoc in Hl. exact Hl.
Qed.
Lemma len_concat_snoc (ls : list (list Z)) l : len (concat (ls ++ [l])) = len (concat ls) + len l.
Proof. rewrite concat_app, len_app. cbn [concat]. now rewrite app_nil_r. Qed.

Lemma lines_loop_ok k hint p c : can_read k = true -> 0 <= p -> forall fuel b o i acc,
  rep k b o i c (p + len (concat acc)) -> tameb False b o -> no_epipe (b_w b) -> lines_from c p acc ->
  (0 < hint -> len (concat acc) < hint) ->
  (Z.to_nat (len c - (p + len (concat acc))) < fuel)%nat ->
  exists ls b' o' i', lines_loop fuel k hint (len (concat acc)) acc b = (Ok ls, b') /\ evolves b b' o o' /\ rep k b' o' i' c (p + len (concat ls))
    /\ lines_got hint c p ls.
Proof.
  intros K Pn. induction fuel as [|fuel IH]; intros b o i acc R T Hp Ha Hh Fu; [lia|]. cbn [lines_loop].
  pose proof (rp_nn _ _ _ _ _ _ R) as Qn. destruct (line_exists c (p + len (concat acc)) Qn) as (l & Hl).
  unfold bind. destruct (readline_ok k b o i c _ (-1) l R T Hp K Hl) as (d & b1 & o1 & i1 & E & V1 & R1 & S1 & (r & El & Er & _)).
  rewrite E. specialize (Er ltac:(lia)). subst r. rewrite app_nil_r in El. subst d.
  assert (Last : forall l0 r, acc = r ++ [l0] -> 0 < hint -> len (concat r) < hint).
  { intros l0 r -> H0. specialize (Hh H0). rewrite len_concat_snoc in Hh. pose proof (len_nonneg l0). lia. }
  destruct l as [|x l0] eqn:Ed.
  - exists acc, b1, o1, i1. split; [reflexivity|]. split; [exact V1|]. change (@len Z []) with 0 in R1. rewrite Z.add_0_r in R1. split; [exact R1|].
    assert (Eof : len c <= p + len (concat acc)). { destruct Hl as (_ & _ & [[X _]|[X _]]); [|congruence]. change (@len Z []) with 0 in X. lia. }
    split; [exact Ha|]. split; [auto|]. intros H0. split; [auto|]. intros l1 r Hr. now apply (Last l1 r).
  - rewrite <- Ed in *. assert (Nl : l <> []) by congruence. assert (Ll : 0 < len l) by (rewrite Ed, len_cons; pose proof (len_nonneg l0); lia).
    fold (len l). rewrite <- len_concat_snoc. assert (Ha2 := lines_from_snoc _ _ _ _ Ha Hl Nl).
    assert (R2 : rep k b1 o1 i1 c (p + len (concat (acc ++ [l])))) by (rewrite len_concat_snoc, Z.add_assoc; exact R1).
    destruct ((0 <? hint) && (hint <=? len (concat (acc ++ [l])))) eqn:Eh.
    + apply andb_true_iff in Eh as [E1 E2]. apply Z.ltb_lt in E1. apply Z.leb_le in E2. exists (acc ++ [l]), b1, o1, i1. split; [reflexivity|]. split; [exact V1|].
      split; [exact R2|]. split; [exact Ha2|]. split; [lia|]. intros _. split; [auto|]. intros l1 r Hr. apply app_inj_tail in Hr as [<- _]. now apply Hh.
    + assert (Hh2 : 0 < hint -> len (concat (acc ++ [l])) < hint).
      { intros H0. apply andb_false_iff in Eh as [X|X]; [apply Z.ltb_ge in X; lia|apply Z.leb_gt in X; lia]. }
      pose proof (slice_max _ _ _ Qn S1) as M1.
      destruct (IH b1 o1 i1 (acc ++ [l]) R2 (tameb_evolves _ _ _ _ _ V1 T) (no_epipe_evolves _ _ _ _ V1 Hp) Ha2 Hh2) as (ls & b' & o' & i' & E' & V' & X).
      { rewrite len_concat_snoc. lia. }
      exists ls, b', o', i'. split; [exact E'|]. split; [eapply evolves_trans; eauto|exact X].
Qed.

Lemma readlines_ok k b o i c p hint : rep k b o i c p -> tameb False b o -> no_epipe (b_w b) -> can_read k = true ->
  exists ls b' o' i', b_readlines k hint b = (Ok ls, b') /\ evolves b b' o o' /\ rep k b' o' i' c (p + len (concat ls)) /\ lines_got hint c p ls.
Proof.
  intros R T Hp K. pose proof (rp_nn _ _ _ _ _ _ R) as Pn. pose proof (rep_left _ _ _ _ _ _ R) as Lf.
  unfold b_readlines, bind. rewrite (check_closed_rep _ _ _ _ _ _ R), (read_fuel_live _ _ _ (rp_live _ _ _ _ _ _ R)).
  apply (lines_loop_ok k hint p c K Pn _ b o i []); auto.
  - cbn [concat]. change (@len Z []) with 0. now rewrite Z.add_0_r.
  - constructor.
  - cbn [concat]. change (@len Z []) with 0. lia.
Qed.

Lemma write_all_ok k : can_write k = true -> forall ds b o i c p, rep k b o i c p -> o_app o = false -> tameb False b o ->
  exists b' o' i', write_all k ds b = (Ok tt, b') /\ evolves b b' o o' /\ rep k b' o' i' (write_at c (Z.to_nat p) (concat ds)) (p + len (concat ds))
    /\ (ds <> [] -> b_rbuf b' = []).
Proof.
  intros K. induction ds as [|d ds IH]; intros b o i c p R A T; cbn [write_all concat].
  - exists b, o, i. split; [reflexivity|]. split; [auto with frame|]. split; [|congruence]. change (@len Z []) with 0. rewrite Z.add_0_r.
    destruct (stored_write c p [] (rp_nn _ _ _ _ _ _ R)) as (X & _). now rewrite X.
  - unfold bind. destruct (b_write_ok False k b o i c p d R T K) as (r & b1 & o1 & i1 & c1 & p1 & E & R1 & V1 & Er & Wn & _). rewrite A in Wn. rewrite E.
    inversion Wn as [X1 X2 X3|? []|? []|? []]; subst.
    destruct (IH b1 o1 i1 _ _ R1 ltac:(rewrite (so_app _ _ (ev_o _ _ _ _ V1)); exact A) (tameb_evolves _ _ _ _ _ V1 T)) as (b2 & o2 & i2 & E2 & V2 & R2 & Er2).
    exists b2, o2, i2. split; [exact E2|]. split; [eapply evolves_trans; eauto|].
    unfold put, after, wat in R2. rewrite write_at_pos in R2 by apply (rp_nn _ _ _ _ _ _ R). rewrite <- Z.add_assoc, <- len_app in R2. split; [exact R2|]. intros _.
    destruct ds as [|d' ds']; [|apply Er2; discriminate]. cbn [write_all] in E2. unfold ret in E2. congruence.
Qed.
Lemma writelines_ok k b o i c p ds : rep k b o i c p -> o_app o = false -> tameb False b o -> can_write k = true ->
  exists b' o' i', b_writelines k ds b = (Ok tt, b') /\ evolves b b' o o' /\ rep k b' o' i' (write_at c (Z.to_nat p) (concat ds)) (p + len (concat ds))
    /\ (ds <> [] -> b_rbuf b' = []).
Proof. intros R A T K. unfold b_writelines, bind. rewrite (check_closed_rep _ _ _ _ _ _ R). now apply (write_all_ok k K ds b o i). Qed.
