(** C46, C47, C48: text streams. *)
From Coq Require Import ZArith Ascii String List Bool Lia.
From Verif Require Import M_Base M_Modes M_Registry M_Kernel M_World M_Raw M_Buffered M_Newline M_Text S_Bytes S_Raw S_Demo S_Buffered S_Newline S_Text S_Codecs
  P_Bytes P_Raw P_Buffered P_BufOps P_Newline P_Decode P_TextBase P_TextRead P_TextLine P_TextTell P_Codecs C_Buffered.
Import ListNotations.
Open Scope Z_scope.

(** A text stream just made, for reading, on a buffered stream of C31 (short counts, no failure), over a file whose bytes from
    the current position on stand for [txt]. *)
Record text_setting (c : tconf) (f : rawio) (size : Z) (w : world) (o : ofd) (i : inode) (txt : list Z) : Prop := mkTS {
  ts_setting : setting (tc_kind c) f size w o i;
  ts_kind : tc_kind c <> BWriter;
  ts_codec : good_codec (tc_codec c);
  ts_small : len (n_data i) < 2 ^ 59;
  ts_pos : o_pos o < 2 ^ 63;
  ts_text : text_of (tc_codec c) (tc_newline c) (skipn (Z.to_nat (o_pos o)) (n_data i)) txt }.
Definition text_fresh (f : rawio) (size : Z) (w : world) : tstate := t_fresh (fresh f size w).

Lemma text_fut c b txt : good_codec (tc_codec c) -> text_of (tc_codec c) (tc_newline c) b txt -> fut c (sput c 0) b = Some txt.
Proof.
  intros G (raw & st & D & N). rewrite (gc_d0 _ G) in D. unfold fut, dstep. rewrite (sput_0 c). rewrite D. destruct st as [b' f'].
  unfold newlines_read, readuniversal, readtranslate, nlc, heldb in *. rewrite andb_false_r. cbn [app]. unfold emit.
  destruct (tc_newline c); try (subst; reflexivity). destruct N as (ps & P & ->). f_equal. now apply univ_pieces.
Qed.

Lemma text_trep c f size w o i txt : text_setting c f size w o i txt ->
  trep c (n_data i) (text_fresh f size w) (o_pos o) txt true false /\ left (text_fresh f size w) txt = txt
  /\ told c (n_data i) (o_pos o) txt.
Proof.
  intros [St K G Sm Ps Tx]. pose proof (text_fut c _ _ G Tx) as Ft. destruct (setting_rep _ _ _ _ _ _ St) as (R & T & N).
  assert (Kr : can_read (tc_kind c) = true) by (destruct (tc_kind c); [reflexivity|congruence|reflexivity]).
  assert (Sk : f_seekable f = true) by apply (lv_seek _ _ _ _ (rp_live _ _ _ _ _ _ R)).
  pose proof (rp_nn _ _ _ _ _ _ R) as Pn.
  assert (O0 : core_ok c (sput c 0)) by (rewrite (sput_0 c); split; [split; [lia|reflexivity]|auto]).
  split; [|split; [reflexivity|]].
  - split; unfold t_decoder, text_fresh, t_fresh; cbn [t_dec t_chars t_used t_snap t_telling t_b fresh b_raw]; auto.
    + exists o, i. split; [exact R|]. split; [exact T|]. split; [exact N|]. split; [reflexivity|split; [exact Kr|apply (se_app _ _ _ _ _ _ St)]].
    + rewrite (core_init c G). exact O0.
    + exists (o_pos o). now apply seg_nil.
    + rewrite (core_init c G). exact Ft.
    + apply clean_nil_l.
    + intros _. unfold snap_ok. cbn [t_dec t_chars]. split; [reflexivity|exact Ft].
  - exists (mkCk (o_pos o) 0 0 false 0). pose proof (pos_field (o_pos o) (conj Pn Ps)) as Hf.
    split; [symmetry; now apply pack_pos|]. cbn [ck_pos ck_flags ck_skip].
    split; [split; [exact Hf|split; [exact field_0|split; exact field_0]]|]. split; [exact Ps|].
    split; [split; [split; [lia|reflexivity]|exact O0]|]. left. split; [reflexivity|exact Ft].
Qed.

(** The stream stands for a view. *)
Definition shows (c : tconf) (C : list Z) (t : tstate) (v : tview) : Prop :=
  exists p r1, trep c C t p r1 (tv_telling v) (tv_sought v) /\ left t r1 = tv_rest v /\ (forall n r, In (n, r) (tv_known v) -> told c C n r).

Lemma step_refines guess c C op t v out t' : good_codec (tc_codec c) -> len C < 2 ^ 59 -> sane guess -> shows c C t v ->
  (forall n, op = ToSeek n -> In n (map fst (tv_known v))) ->
  run_top guess c op t = (out, t') -> exists v', tastep (tc_newline c) v op out v' /\ shows c C t' v'
    /\ tv_known v' = match op, out with ToTell, TInt n => (n, tv_rest v) :: tv_known v | ToEnd, TInt n => (n, []) :: tv_known v | _, _ => tv_known v end.
Proof.
  intros G Sm Gs (p & r1 & R & L & K) Hk E. destruct v as [r k te q]. cbn [tv_telling tv_sought tv_rest tv_known] in *.
  destruct op as [n|n| | |n|]; cbn [run_top] in E.
  - destruct (t_read_ok c G C Sm n _ _ _ _ _ R) as (t1 & p1 & r2 & E1 & R1 & L1). rewrite E1 in E. injection E as <- <-. rewrite L in *.
    eexists. split; [constructor|]. split; [exists p1, r2; split; [exact R1|split; [exact L1|exact K]]|reflexivity].
  - destruct (t_readline_ok c G C Sm n _ _ _ _ _ R) as (l & t1 & p1 & r2 & E1 & FL & R1 & L1 & _). rewrite E1 in E. injection E as <- <-. rewrite L in *.
    eexists. split; [constructor; exact FL|]. split; [exists p1, r2; split; [exact R1|split; [exact L1|exact K]]|reflexivity].
  - destruct (t_next_ok c G C Sm _ _ _ _ _ R) as [(l & t1 & p1 & r2 & E1 & FL & Nl & R1 & L1)|(t1 & p1 & E1 & Hl & R1 & L1)].
    + rewrite E1 in E. injection E as <- <-. rewrite L in *.
      eexists. split; [constructor; [exact FL|exact Nl]|]. split; [exists p1, r2; split; [exact R1|split; [exact L1|exact K]]|reflexivity].
    + rewrite E1 in E. injection E as <- <-. assert (Hr : r = []) by congruence. clear L. subst r.
      eexists. split; [constructor|]. split; [exists p1, []; split; [exact R1|split; [exact L1|exact K]]|reflexivity].
  - destruct te.
    + destruct (t_tell_ok c G C Sm guess Gs _ _ _ _ R) as (r0 & t1 & E1 & R1 & L1 & [(n & -> & Tn)|(Hq & ->)]); rewrite E1 in E; injection E as <- <-; rewrite L in *.
      * eexists. split; [constructor|]. split; [exists p, r1; split; [exact R1|split; [exact L1|]]|reflexivity].
        cbn [tv_known]. intros m s [H|H]; [injection H as <- <-; exact Tn|now apply K].
      * subst q. eexists. split; [constructor|]. split; [exists p, r1; split; [exact R1|split; [exact L1|exact K]]|reflexivity].
    + rewrite (t_tell_off c C guess _ _ _ _ R) in E. injection E as <- <-.
      eexists. split; [constructor|]. split; [exists p, r1; split; [exact R|split; [exact L|exact K]]|reflexivity].
  - specialize (Hk n eq_refl). apply in_map_iff in Hk as ((m & s) & Em & Hin). cbn in Em. subst m.
    destruct (t_seek_ok c G C Sm guess n s _ _ _ _ _ R (K _ _ Hin)) as (t1 & p1 & r2 & E1 & R1 & L1). rewrite E1 in E. injection E as <- <-.
    eexists. split; [constructor; exact Hin|]. split; [exists p1, r2; split; [exact R1|split; [exact L1|exact K]]|reflexivity].
  - destruct (t_seek_end_ok c G C Sm guess _ _ _ _ _ R) as (n & t1 & p1 & E1 & R1 & L1 & Tn). rewrite E1 in E. injection E as <- <-.
    eexists. split; [constructor|]. split; [exists p1, []; split; [exact R1|split; [exact L1|]]|reflexivity].
    cbn [tv_known]. intros m s [H|H]; [injection H as <- <-; exact Tn|now apply K].
Qed.

Lemma run_refines guess c C : good_codec (tc_codec c) -> len C < 2 ^ 59 -> sane guess -> forall ops t v outs t', shows c C t v ->
  seeks_known (map fst (tv_known v)) (combine ops outs) ->
  run_tops guess c ops t = (outs, t') -> exists v', taruns (tc_newline c) v ops outs v' /\ shows c C t' v'.
Proof.
  intros G Sm Gs. induction ops as [|op ops IH]; intros t v outs t' Sh Hk E; cbn [run_tops] in E.
  - injection E as <- <-. exists v. split; [constructor|exact Sh].
  - destruct (run_top guess c op t) as [out t1] eqn:E1. destruct (run_tops guess c ops t1) as [outs' t2] eqn:E2. injection E as <- <-.
    cbn [combine] in Hk.
    destruct (step_refines guess c C op t v out t1 G Sm Gs Sh) as (v1 & A1 & S1 & K1).
    + intros n ->. cbn [seeks_known] in Hk. apply Hk.
    + exact E1.
    + assert (Hk1 : seeks_known (map fst (tv_known v1)) (combine ops outs')).
      { rewrite K1. destruct op, out; cbn [seeks_known map fst] in *; try exact Hk; try apply Hk. }
      destruct (IH t1 v1 outs' t2 S1 Hk1 E2) as (v2 & A2 & S2). exists v2. split; [econstructor; eauto|exact S2].
Qed.

(** C46 and C47: any sequence of reads, tells and seeks behaves like a cursor in the text [txt] (S_Text.tastep), provided that seeks
    only go to positions that were given by tell() or seek(0, 2), or to the position at which the stream was made. *)
Theorem C47_tell_seek_partial : forall guess c f size w o i txt ops outs t', text_setting c f size w o i txt -> sane guess ->
  run_tops guess c ops (text_fresh f size w) = (outs, t') -> seeks_known [o_pos o] (combine ops outs) ->
  exists v, taruns (tc_newline c) (mkTV txt [(o_pos o, txt)] true false) ops outs v.
Proof.
  intros guess c f size w o i txt ops outs t' S Gs E Hk. destruct (text_trep _ _ _ _ _ _ _ S) as (R & L & Tn). destruct S as [St K G Sm Ps Tx].
  assert (Sh : shows c (n_data i) (text_fresh f size w) (mkTV txt [(o_pos o, txt)] true false)).
  { exists (o_pos o), txt. split; [exact R|]. split; [exact L|]. cbn [tv_known]. intros n r [H|[]]. injection H as <- <-. exact Tn. }
  destruct (run_refines guess c (n_data i) G Sm Gs ops _ _ outs t' Sh Hk E) as (v & A & _). eauto.
Qed.

(** A program that never seeks never sees tell() fail, but in the course of an iteration. *)
Definition seeking (op : top) : bool := match op with ToSeek _ | ToEnd => true | _ => false end.
Corollary C47_tell_without_seek : forall guess c f size w o i txt ops outs t', text_setting c f size w o i txt -> sane guess ->
  existsb seeking ops = false -> run_tops guess c ops (text_fresh f size w) = (outs, t') ->
  (forall e, In (TErr e) outs -> e = EOS 0) /\ (~ In ToNext ops -> forall e, ~ In (TErr e) outs).
Proof.
  intros guess c f size w o i txt ops outs t' S Gs Hs E.
  destruct (C47_tell_seek_partial guess c f size w o i txt ops outs t' S Gs E) as (v & A).
  { clear -Hs. generalize [o_pos o]. revert outs. induction ops as [|op ops IH]; intros [|out outs] k; try exact Logic.I.
    cbn [existsb] in Hs. apply orb_false_iff in Hs as [H1 H2]. cbn [combine]. destruct op, out; try discriminate H1; cbn [seeks_known]; auto. }
  clear -Hs A. split.
  - assert (Q : tv_sought (mkTV txt [(o_pos o, txt)] true false) = false) by reflexivity. revert A Q.
    generalize (mkTV txt [(o_pos o, txt)] true false). intros v0 A. induction A as [|s op out s1 ops outs s2 St A IH]; intros Q e; [intros []|].
    cbn [existsb] in Hs. apply orb_false_iff in Hs as [H1 H2]. cbn [In].
    assert (Q1 : tv_sought s1 = false) by (destruct St; cbn [tv_sought] in *; try discriminate H1; congruence).
    intros [->|H]; [|exact (IH H2 Q1 e H)]. inversion St; subst; cbn in *; congruence.
  - assert (Q : tv_sought (mkTV txt [(o_pos o, txt)] true false) = false) by reflexivity.
    assert (T : tv_telling (mkTV txt [(o_pos o, txt)] true false) = true) by reflexivity. revert A Q T.
    generalize (mkTV txt [(o_pos o, txt)] true false). intros v0 A. induction A as [|s op out s1 ops outs s2 St A IH]; intros Q T N e; [intros []|].
    cbn [existsb] in Hs. apply orb_false_iff in Hs as [H1 H2]. cbn [In] in *.
    assert (Q1 : tv_sought s1 = false /\ tv_telling s1 = true) by (destruct St; cbn [tv_sought tv_telling] in *; try discriminate H1; try (split; congruence); elim N; now left).
    intros [->|H]; [|exact (IH H2 (proj1 Q1) (proj2 Q1) (fun x => N (or_intror x)) e H)]. inversion St; subst; cbn in *; congruence.
Qed.

(** Reads alone: nothing can fail. *)
Definition reading (op : top) : bool := match op with ToRead _ | ToReadline _ | ToNext => true | _ => false end.
(** [outs] are the answers to [ops] of a cursor in a text of which [r] is left, in the end [r']. *)
Inductive text_reads (nl : nlarg) : list Z -> list top -> list tout -> list Z -> Prop :=
| TR_nil : forall r, text_reads nl r [] [] r
| TR_read : forall r n ops outs r', text_reads nl (skipn (length (limit n r)) r) ops outs r' ->
    text_reads nl r (ToRead n :: ops) (TText (limit n r) :: outs) r'
| TR_line : forall r n l ops outs r', first_line nl r l -> text_reads nl (skipn (length (limit n l)) r) ops outs r' ->
    text_reads nl r (ToReadline n :: ops) (TText (limit n l) :: outs) r'
| TR_next : forall r l ops outs r', first_line nl r l -> l <> [] -> text_reads nl (skipn (length l) r) ops outs r' ->
    text_reads nl r (ToNext :: ops) (TText l :: outs) r'
| TR_stop : forall ops outs r', text_reads nl [] ops outs r' -> text_reads nl [] (ToNext :: ops) (TStop :: outs) r'.

Lemma taruns_reads nl ops outs v v' : forallb reading ops = true -> taruns nl v ops outs v' -> text_reads nl (tv_rest v) ops outs (tv_rest v').
Proof.
  intros H A. induction A as [|s op out s1 ops outs s2 St A IH]; [constructor|]. cbn [forallb] in H. apply andb_true_iff in H as [H1 H2]. specialize (IH H2).
  destruct St; try discriminate H1; cbn [tv_rest] in *; econstructor; eauto.
Qed.

Theorem C46_text_reads : forall guess c f size w o i txt ops outs t', text_setting c f size w o i txt ->
  forallb reading ops = true -> run_tops guess c ops (text_fresh f size w) = (outs, t') ->
  exists left, text_reads (tc_newline c) txt ops outs left.
Proof.
  intros guess c f size w o i txt ops outs t' S Hr E.
  assert (E' : run_tops exact_guess c ops (text_fresh f size w) = (outs, t')).
  { revert E. generalize (text_fresh f size w). revert outs t'. clear S. induction ops as [|op ops IH]; intros outs t' t E; [exact E|].
    cbn [forallb] in Hr. apply andb_true_iff in Hr as [H1 H2]. cbn [run_tops] in *. replace (run_top exact_guess c op t) with (run_top guess c op t) by (destruct op; try discriminate H1; reflexivity).
    destruct (run_top guess c op t) as [out t1]. destruct (run_tops guess c ops t1) as [outs1 t2] eqn:E1. injection E as <- <-.
    now rewrite (IH H2 _ _ _ E1). }
  destruct (C47_tell_seek_partial exact_guess c f size w o i txt ops outs t' S) as (v & A).
  - intros a b n H. unfold exact_guess. apply inj_le. destruct b; [replace n with 0%nat by lia; cbn; lia|].
    apply Nat.div_le_upper_bound; [lia|]. rewrite Nat.mul_comm. apply Nat.mul_le_mono_r. exact H.
  - exact E'.
  - clear -Hr. generalize [o_pos o]. revert outs. induction ops as [|op ops IH]; intros [|out outs] k; try exact Logic.I.
    cbn [forallb] in Hr. apply andb_true_iff in Hr as [H1 H2]. cbn [combine]. destruct op; try discriminate H1; cbn [seeks_known]; auto.
  - exists (tv_rest v). exact (taruns_reads _ _ _ _ _ Hr A).
Qed.

(** Corollary: read() gives the whole text. *)
Corollary C46_read_all : forall c f size w o i txt, text_setting c f size w o i txt ->
  exists t', t_read c None (text_fresh f size w) = (Ok txt, t').
Proof.
  intros c f size w o i txt S. destruct (run_tops exact_guess c [ToRead None] (text_fresh f size w)) as [outs t'] eqn:E.
  destruct (C46_text_reads exact_guess c f size w o i txt [ToRead None] outs t' S eq_refl E) as (l & A).
  cbn [run_tops run_top] in E. destruct (t_read c None (text_fresh f size w)) as [[s|e] t1].
  - injection E as <- <-. exists t1. inversion A; subst. reflexivity.
  - injection E as <- <-. inversion A.
Qed.

(** Corollary: a loop over the stream gives the lines of the text. *)
Corollary C46_iteration : forall c f size w o i txt ls, text_setting c f size w o i txt -> lines_of (tc_newline c) txt ls ->
  exists t', run_tops exact_guess c (repeat ToNext (length ls) ++ [ToNext]) (text_fresh f size w) = (map TText ls ++ [TStop], t').
Proof.
  intros c f size w o i txt ls S L.
  destruct (run_tops exact_guess c (repeat ToNext (length ls) ++ [ToNext]) (text_fresh f size w)) as [outs t'] eqn:E.
  assert (Hr : forallb reading (repeat ToNext (length ls) ++ [ToNext]) = true).
  { clear. induction ls; cbn in *; auto. }
  destruct (C46_text_reads exact_guess c f size w o i txt _ outs t' S Hr E) as (l & A). exists t'. f_equal. clear -L A.
  revert outs A. induction L as [|s l0 r ls F N Es L IH]; intros outs A; cbn [length repeat app map] in *.
  - inversion A as [| | |r0 l0 ops0 outs0 r' F N A'|ops0 outs0 r' A']; subst; clear A.
    + destruct (first_line_prefix _ _ _ F) as [z Hz]. destruct l0; [congruence|discriminate Hz].
    + inversion A'; subst. reflexivity.
  - inversion A as [| | |r0 l1 ops0 outs0 r' F1 N1 A'|ops0 outs0 r' A']; subst; clear A.
    + rewrite (first_line_unique _ _ _ _ F F1) in *. rewrite skipn_app, skipn_all, Nat.sub_diag in A'. cbn [app skipn] in A'. f_equal. now apply IH.
    + destruct l0; [congruence|]. match goal with H : [] = _ |- _ => discriminate H end.
Qed.

(** * Examples and refutations, with strict UTF-8 *)
Definition demo_text (k : bkind) (size : Z) (data : list Z) (io : list ioev) : tstate := t_fresh (demo_buf k size data io).
Definition conf (k : bkind) (nl : nlarg) : tconf := mkTC utf8 nl [10] false k.
(** U+1F600 *)
Definition smile : list Z := [240; 159; 152; 128].

(** A buffer of 4 bytes, and system calls that give 1, 2, 1, 1... bytes: the emoji and the CR LF are cut. *)
Example C46_example :
  fst (run_tops exact_guess (conf BReader NlNone) [ToRead (Some 1); ToTell; ToReadline None; ToNext; ToNext; ToTell; ToNext; ToTell]
         (demo_text BReader 4 ([97; 13; 10; 98] ++ smile ++ [13; 99]) [IoFull; IoShort 1; IoShort 2; IoShort 1; IoShort 1; IoFull]))
  = [TText [97]; TInt 1; TText [10]; TText [98; 128512; 10]; TText [99]; TErr (EOS 0); TStop; TInt 10].
Proof. vm_compute. reflexivity. Qed.
Example C46_setting_inhabited :
  let '(f, w) := demo_open "f" true false false (demo ([97; 13; 10; 98] ++ smile) [] [] []) in
  exists o i, text_setting (conf BReader NlNone) f 4 w o i [97; 10; 98; 128512] /\ lines_of NlNone [97; 10; 98; 128512] [[97; 10]; [98; 128512]].
Proof.
  cbn -[Z.of_nat utf8]. eexists _, _. split.
  - constructor.
    + constructor; [constructor; try reflexivity; cbn; lia|reflexivity|lia|cbn; auto|split; [intros X; now elim X|discriminate]|intros e []].
    + discriminate.
    + exact utf8_good.
    + reflexivity.
    + reflexivity.
    + exists [97; 13; 10; 98; 128512], ([], 0). split; [vm_compute; reflexivity|]. exists [PChar 97; PCrLf; PChar 98; PChar 128512].
      split; [|reflexivity].
      apply (ps_cons (PChar 97) [13; 10; 98; 128512]); [cbn; lia|discriminate|]. apply (ps_cons PCrLf [98; 128512]); [exact Logic.I|discriminate|].
      apply (ps_cons (PChar 98) [128512]); [cbn; lia|discriminate|]. apply (ps_cons (PChar 128512) []); [cbn; lia|discriminate|]. constructor.
  - apply (LO_cons _ _ [97; 10] [98; 128512]); [|discriminate|reflexivity|].
    + left. exists [97], [10], [98; 128512]. split; [reflexivity|]. split; [reflexivity|]. split; [reflexivity|]. split.
      * intros [|a l] e r E ->; [discriminate E|cbn; lia].
      * intros e r E ->. cbn. lia.
    + apply (LO_cons _ _ [98; 128512] []); [|discriminate|reflexivity|constructor].
      right. split; [reflexivity|]. intros a e r E ->.
      destruct a as [|a1 [|a2 [|a3 l]]]; try discriminate E.
Qed.

(** Positions, and going back to them. *)
Example C47_example :
  fst (run_tops exact_guess (conf BReader NlEmpty) [ToRead (Some 3); ToTell; ToRead (Some 1); ToTell; ToEnd; ToSeek 4; ToRead None; ToSeek 8; ToRead (Some 1)]
         (demo_text BReader 4096 ([97; 13; 10; 98] ++ smile ++ [13; 99]) []))
  = [TText [97; 13; 10]; TInt 3; TText [98]; TInt 4; TInt 10; TInt 4; TText [128512; 13; 99]; TInt 8; TText [13]].
Proof. vm_compute. reflexivity. Qed.

(** tell() right after seek() to a position given by tell(): AssertionError.  seek() forgets to set _b2cratio, and tell() uses the ratio of
    a chunk read before. *)
Theorem C47_tell_after_seek_refuted : exists c t n t1 t2 t3,
  t_read c (Some 1) t = (Ok [10], t1) /\ t_tell exact_guess c t1 = (Ok n, t2) /\ t_seek exact_guess c n 0 t2 = (Ok n, t3)
  /\ fst (t_tell exact_guess c t3) = Err EAssert.
Proof.
  exists (conf BReader NlNone), (demo_text BReader 4096 ([13; 120] ++ List.concat (repeat smile 10)) []).
  eexists _, _, _, _. split; [vm_compute; reflexivity|]. split; [vm_compute; reflexivity|]. try (split; [vm_compute; reflexivity|]). vm_compute. reflexivity.
Qed.

(** size() (or flush(), sync()) during an iteration enables tell() again, with a snapshot that is out of date: the position
    returned is not that of the text left. *)
Theorem C47_tell_after_size_refuted : exists c t l n rest rest' t',
  (t_read c (Some 1) ;; l <- t_next c ;; t_size c ;; n <- t_tell exact_guess c ;; r <- t_read c None ;;
   t_seek exact_guess c n 0 ;; r' <- t_read c None ;; ret (l, n, r, r')) t = (Ok (l, n, rest, rest'), t') /\ rest <> rest'.
Proof.
  exists (conf BReader NlLf), (demo_text BReader 4 [1; 2; 3; 4; 5; 10; 7] []).
  eexists _, _, _, _, _. split; [vm_compute; reflexivity|discriminate].
Qed.
(** ... or tell() fails an assertion. *)
Theorem C47_tell_after_size_assert_refuted : exists c t,
  fst ((t_next c ;; t_size c ;; t_tell exact_guess c) t) = Err EAssert.
Proof.
  exists (conf BReader NlLf), (demo_text BReader 4 [1; 2; 3; 4; 5; 6; 10; 7; 8; 9] []). vm_compute. reflexivity.
Qed.

(** C48: write() after read() goes behind what was read ahead, not to the position that tell() shows. *)
Theorem C48_write_after_read_refuted : exists c t t' content',
  (t_read c (Some 1) ;; n <- t_tell exact_guess c ;; t_write c [120] ;; t_close c ;; ret n) t = (Ok 1, t')
  /\ content (b_w (t_b t)) (1, 10) = [97; 98; 99; 100] /\ content (b_w (t_b t')) (1, 10) = content'
  /\ content' = [97; 98; 99; 100; 120] /\ content' <> [97; 120; 99; 100].
Proof.
  exists (conf BRandom NlNone), (demo_text BRandom 4096 [97; 98; 99; 100] []). eexists _, _.
  split; [vm_compute; reflexivity|]. split; [reflexivity|]. split; [vm_compute; reflexivity|]. split; [reflexivity|discriminate].
Qed.

(** C49: truncate() without size gives the number of tell(), in which decoder states are packed, to the buffer as a size. *)
Lemma truncate_none guess c t t1 n t2 : t_flush c t = (Ok tt, t1) -> t_tell guess c t1 = (Ok n, t2) ->
  t_truncate guess c None t = on_b (b_truncate (tc_kind c) (Some n)) t2.
Proof. intros E1 E2. unfold t_truncate, bind. now rewrite E1, E2. Qed.
Theorem C49_truncate_refuted : exists c t s t1 n t2, t_read c (Some 2) t = (Ok s, t1)
  /\ t_truncate exact_guess c None t1 = on_b (b_truncate (tc_kind c) (Some n)) t2
  /\ content (b_w (t_b t)) (1, 10) = [97; 13; 98] /\ s = [97; 10] /\ 2 ^ 64 < n.
Proof.
  set (c := conf BRandom NlNone). set (t := demo_text BRandom 4096 [97; 13; 98] []).
  set (t1 := snd (t_read c (Some 2) t)). set (t2 := snd (t_flush c t1)).
  set (n := match fst (t_tell exact_guess c t2) with Ok n => n | Err _ => 0 end).
  exists c, t, [97; 10], t1, n, (snd (t_tell exact_guess c t2)).
  assert (E1 : fst (t_read c (Some 2) t) = Ok [97; 10]) by (vm_compute; reflexivity).
  assert (E2 : fst (t_flush c t1) = Ok tt) by (vm_compute; reflexivity).
  assert (E3 : fst (t_tell exact_guess c t2) = Ok n) by (vm_compute; reflexivity).
  split; [rewrite <- E1; apply surjective_pairing|].
  split; [apply (truncate_none exact_guess c t1 t2); [rewrite <- E2|rewrite <- E3]; apply surjective_pairing|].
  split; [reflexivity|]. split; [reflexivity|vm_compute; reflexivity].
Qed.

(** C50: lock_file() during an iteration fails, before any lock is asked for. *)
Theorem C50_lock_in_iteration_refuted : exists c t l t1, t_next c t = (Ok (Some l), t1)
  /\ forall timeout length offset whence shared, t_lock_file exact_guess c timeout length offset whence shared t1 = (Err (EOS 0), t1).
Proof.
  exists (conf BReader NlLf), (demo_text BReader 4096 [97; 10; 98] []). eexists _, _. split; [vm_compute; reflexivity|]. reflexivity.
Qed.
(** unlock_file() fails after a lock_file() that succeeded: the file stays locked. *)
Theorem C50_unlock_refuted : exists c t s t1 r t2, t_read c (Some 1) t = (Ok s, t1)
  /\ t_lock_file exact_guess c PNone PNone PNone 0 SNone t1 = (Ok r, t2)
  /\ fst (t_unlock_file exact_guess c PNone PNone 0 t2) = Err EAssert.
Proof.
  exists (conf BReader NlNone), (demo_text BReader 4096 ([13; 120] ++ List.concat (repeat smile 10)) []).
  eexists _, _, _, _. split; [vm_compute; reflexivity|]. split; [vm_compute; reflexivity|]. try (split; [vm_compute; reflexivity|]). vm_compute. reflexivity.
Qed.

(** What does hold: when no seek() was done and no iteration is going on, dropping the buffers (which lock_file and unlock_file do
    first) keeps the place in the text. *)
Theorem C50_reset_keeps_text_partial : forall guess c f size w o i txt ops outs t', text_setting c f size w o i txt -> sane guess ->
  forallb (fun op => match op with ToRead _ | ToReadline _ => true | _ => false end) ops = true ->
  run_tops guess c ops (text_fresh f size w) = (outs, t') ->
  exists left t1, text_reads (tc_newline c) txt ops outs left /\ t_reset_buffers guess c t' = (Ok tt, t1)
    /\ exists t2, t_read c None t1 = (Ok left, t2).
Proof.
  intros guess c f size w o i txt ops outs t' S Gs Hr E. destruct (text_trep _ _ _ _ _ _ _ S) as (R & L & Tn). destruct S as [St K G Sm Ps Tx].
  assert (Main : forall ops t p r1 outs t', trep c (n_data i) t p r1 true false ->
            forallb (fun op => match op with ToRead _ | ToReadline _ => true | _ => false end) ops = true -> run_tops guess c ops t = (outs, t') ->
            exists p' r1', text_reads (tc_newline c) (left t r1) ops outs (left t' r1') /\ trep c (n_data i) t' p' r1' true false).
  { clear -G Sm. induction ops as [|op ops IH]; intros t p r1 outs t' R Hr E; cbn [run_tops] in E.
    - injection E as <- <-. exists p, r1. split; [constructor|exact R].
    - cbn [forallb] in Hr. apply andb_true_iff in Hr as [H1 H2]. destruct op as [n|n| | |n|]; try discriminate H1; cbn [run_top] in E.
      + destruct (t_read_ok c G _ Sm n _ _ _ _ _ R) as (t1 & p1 & r2 & E1 & R1 & L1). rewrite E1 in E.
        destruct (run_tops guess c ops t1) as [outs' t2] eqn:E2. injection E as <- <-.
        destruct (IH t1 p1 r2 outs' t2 R1 H2 E2) as (p3 & r3 & A & R3). exists p3, r3. split; [constructor; rewrite <- L1; exact A|exact R3].
      + destruct (t_readline_ok c G _ Sm n _ _ _ _ _ R) as (l & t1 & p1 & r2 & E1 & FL & R1 & L1 & _). rewrite E1 in E.
        destruct (run_tops guess c ops t1) as [outs' t2] eqn:E2. injection E as <- <-.
        destruct (IH t1 p1 r2 outs' t2 R1 H2 E2) as (p3 & r3 & A & R3). exists p3, r3. split; [econstructor; [exact FL|rewrite <- L1; exact A]|exact R3]. }
  destruct (Main ops _ _ _ _ _ R Hr E) as (p1 & r1 & A & R1). rewrite L in A. exists (left t' r1).
  destruct (t_tell_ok c G _ Sm guess Gs _ _ _ _ R1) as (r0 & t1 & E1 & R2 & L2 & [(n & -> & Tn')|(X & _)]); [|discriminate X].
  destruct (t_seek_to_ok c G _ Sm n _ _ _ _ _ _ R2 Tn') as (t2 & p2 & r2 & E2 & R3 & L3).
  destruct (t_read_ok c G _ Sm None _ _ _ _ _ R3) as (t3 & p3 & r3 & E3 & _ & _). cbn [limit] in E3. rewrite L3 in E3.
  exists t2. split; [exact A|]. split; [|eauto].
  unfold t_reset_buffers, t_seek. unfold bind at 1. unfold bind at 1, t_check_closed at 1. rewrite (bst_open _ _ _ _ (tr_b _ _ _ _ _ _ _ R1)).
  unfold bind at 1, t_seekable at 1. rewrite (bst_seekable _ _ _ _ (tr_b _ _ _ _ _ _ _ R1)). change (1 =? 1) with true. change (0 =? 0) with true. cbn [negb].
  unfold bind at 1. rewrite E1, E2. reflexivity.
Qed.

Print Assumptions C46_text_reads.
Print Assumptions C46_read_all.
Print Assumptions C46_iteration.
Print Assumptions C47_tell_seek_partial.
Print Assumptions C47_tell_without_seek.
Print Assumptions C47_tell_after_seek_refuted.
Print Assumptions C47_tell_after_size_refuted.
Print Assumptions C47_tell_after_size_assert_refuted.
Print Assumptions C48_write_after_read_refuted.
Print Assumptions C49_truncate_refuted.
Print Assumptions C50_lock_in_iteration_refuted.
Print Assumptions C50_unlock_refuted.
Print Assumptions C50_reset_keeps_text_partial.
