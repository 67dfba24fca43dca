(** C65: what the calls of buffered and text streams may change. *)
From Coq Require Import ZArith Ascii String List Bool Lia.
From Verif Require Import M_Base M_Modes M_Registry M_Kernel M_World M_Raw M_Buffered M_BufLines M_Text S_Demo S_Closed S_Confined S_Codecs P_Raw P_Frame C_Text.
Import ListNotations.
Open Scope Z_scope.

Section Keep.
  (** A relation between the worlds before and after a call of the raw stream. *)
  Variable R : rawio -> world -> world -> Prop.
  Hypothesis R_refl : forall f w, R f w w.
  Hypothesis R_trans : forall f a b c, R f a b -> R f b c -> R f a c.
  Definition rkeep {A} (m : rawio -> M A) : Prop := forall f w r w', m f w = (r, w') -> R f w w'.
  Definition keep {A} (m : B A) : Prop := forall b r b', m b = (r, b') -> b_raw b' = b_raw b /\ R (b_raw b) (b_w b) (b_w b').
  Definition tkeep {A} (m : T A) : Prop := forall t r t', m t = (r, t') ->
    b_raw (t_b t') = b_raw (t_b t) /\ R (b_raw (t_b t)) (b_w (t_b t)) (b_w (t_b t')).

  Lemma keep_ret {A} (a : A) : keep (ret a).
  Proof. intros b r b' [= <- <-]. auto. Qed.
  Lemma keep_raise {A} e : keep (@raise bstate A e).
  Proof. intros b r b' [= <- <-]. auto. Qed.
  Lemma keep_bind {A X} (m : B A) (g : A -> B X) : keep m -> (forall a, keep (g a)) -> keep (bind m g).
  Proof.
    intros Hm Hg b r b'. unfold bind. destruct (m b) as [[a|e] b1] eqn:E; intros H.
    - destruct (Hm _ _ _ E) as [E1 R1]. destruct (Hg a _ _ _ H) as [E2 R2]. rewrite E1 in *. eauto.
    - injection H as <- <-. eauto.
  Qed.
  Lemma keep_raw {A} (m : rawio -> M A) : rkeep m -> keep (on_raw m).
  Proof. intros H b r b'. unfold on_raw. destruct (m (b_raw b) (b_w b)) as [r1 w1] eqn:E. intros [= <- <-]. split; [reflexivity|]. exact (H _ _ _ _ E). Qed.
  Lemma keep_look {A X} (x : bstate -> X) (g : X -> B A) : (forall v, keep (g v)) -> keep (fun b => g (x b) b).
  Proof. intros H b r b'. apply H. Qed.
  Lemma keep_self {A} (g : bstate -> B A) : (forall v, keep (g v)) -> keep (fun b => g b b).
  Proof. intros H b r b'. apply H. Qed.
  Lemma keep_pure {A} (x : bstate -> res A) (u : bstate -> bstate) : (forall b, b_raw (u b) = b_raw b /\ b_w (u b) = b_w b) -> keep (fun b => (x b, u b)).
  Proof. intros H b r b' [= <- <-]. destruct (H b) as [-> ->]. auto. Qed.
  Lemma keep_check : keep b_check_closed.
  Proof. intros b r b'. unfold b_check_closed. destruct (f_closed (b_raw b)); intros [= <- <-]; auto. Qed.

  Lemma tkeep_ret {A} (a : A) : tkeep (ret a).
  Proof. intros t r t' [= <- <-]. auto. Qed.
  Lemma tkeep_raise {A} e : tkeep (@raise tstate A e).
  Proof. intros t r t' [= <- <-]. auto. Qed.
  Lemma tkeep_bind {A X} (m : T A) (g : A -> T X) : tkeep m -> (forall a, tkeep (g a)) -> tkeep (bind m g).
  Proof.
    intros Hm Hg t r t'. unfold bind. destruct (m t) as [[a|e] t1] eqn:E; intros H.
    - destruct (Hm _ _ _ E) as [E1 R1]. destruct (Hg a _ _ _ H) as [E2 R2]. rewrite E1 in *. eauto.
    - injection H as <- <-. eauto.
  Qed.
  Lemma tkeep_b {A} (m : B A) : keep m -> tkeep (on_b m).
  Proof. intros H t r t'. unfold on_b. destruct (m (t_b t)) as [r1 b1] eqn:E. intros [= <- <-]. exact (H _ _ _ E). Qed.
  Lemma tkeep_upd u : (forall t, t_b (u t) = t_b t) -> tkeep (upd_t u).
  Proof. intros H t r t' [= <- <-]. rewrite H. auto. Qed.
  Lemma tkeep_pure {A} (x : tstate -> res A) (u : tstate -> tstate) : (forall t, t_b (u t) = t_b t) -> tkeep (fun t => (x t, u t)).
  Proof. intros H t r t' [= <- <-]. rewrite H. auto. Qed.
  Lemma tkeep_self {A} (g : tstate -> T A) : (forall v, tkeep (g v)) -> tkeep (fun t => g t t).
  Proof. intros H t r t'. apply H. Qed.

  (** The calls of the raw stream that change no file ... *)
  Hypothesis K_read : forall n, rkeep (fun f => raw_read f (Some n)).
  Hypothesis K_readall : rkeep raw_readall.
  Hypothesis K_readinto : forall n, rkeep (fun f => raw_readinto f n).
  Hypothesis K_seek : forall off wh, rkeep (fun f => raw_seek f off wh).
  Hypothesis K_tell : rkeep raw_tell.
  Hypothesis K_fuel : rkeep readall_fuel.
  Hypothesis K_size : rkeep raw_size.
  Hypothesis K_flush : rkeep raw_flush.
  Hypothesis K_sync : forall h md fu, rkeep (fun f => raw_sync h f md fu).
  (** ... and those that may. *)
  Definition may_write : Prop := (forall d, rkeep (fun f => raw_write f d)) /\ (forall s, rkeep (fun f => raw_truncate f s)).

  Ltac k1 := first [apply keep_ret | apply keep_raise | apply keep_check
    | apply keep_raw; solve [auto] | apply keep_bind; [|intros ?]
    | apply keep_pure; intros ?; split; reflexivity | solve [auto] ].
  Ltac kk := repeat k1.

  Lemma keep_fuel : keep read_fuel.
  Proof. unfold read_fuel. kk. Qed.
  Lemma keep_fill wanted n : forall fuel out, keep (fill_loop fuel wanted n out).
  Proof.
    induction fuel as [|fuel IH]; intros out; cbn [fill_loop]; [kk|]. destruct (Z.of_nat (length out) <? n); [|kk].
    kk. destruct a as [[|x l]|]; kk.
  Qed.
  Lemma keep_read_unlocked n : keep (read_unlocked n).
  Proof.
    intros b. unfold read_unlocked. destruct (match n with None => true | Some k => k =? -1 end).
    - match goal with |- forall r b', ?m b = _ -> _ => enough (H : keep m) by exact (H b) end.
      unfold reset_read_buf. kk. destruct a0 as [c|]; kk.
    - set (z := match n with Some k => k | None => 0 end). destruct (z <=? Z.of_nat (length (unread b))).
      + intros r b' [= <- <-]. auto.
      + match goal with |- forall r b', ?m b = _ -> _ => enough (H : keep m) by exact (H b) end.
        apply keep_bind; [apply keep_fuel|intros fuel]. apply keep_bind; [apply keep_fill|intros [out nodata]]. kk.
  Qed.
  Lemma keep_reader_read n : keep (reader_read n).
  Proof. unfold reader_read. destruct (match n with Some k => k <? -1 | None => false end); [kk|apply keep_read_unlocked]. Qed.
  Lemma keep_peek_unlocked n : keep (peek_unlocked n).
  Proof.
    unfold peek_unlocked. apply keep_bind; [|intros ?; kk]. intros b. cbv zeta.
    destruct ((Z.of_nat (length (unread b)) <? Z.min n (b_size b)) || (Z.of_nat (length (unread b)) <=? 0)).
    - match goal with |- forall r b', ?m b = _ -> _ => enough (H : keep m) by exact (H b) end.
      apply keep_bind; [apply keep_raw; auto|intros [[|x l]|]]; kk.
    - intros r b' [= <- <-]. auto.
  Qed.
  Lemma keep_reader_read1 n : keep (reader_read1 n).
  Proof.
    unfold reader_read1. apply keep_bind; [kk|intros _]. intros b. cbv zeta. set (m := if n <? 0 then b_size b else n). clearbody m.
    destruct (m =? 0); [intros r b' [= <- <-]; auto|].
    match goal with |- forall r b', ?m b = _ -> _ => enough (H : keep m) by exact (H b) end.
    apply keep_bind; [apply keep_peek_unlocked|intros _]. intros b1. apply keep_read_unlocked.
  Qed.
  Lemma keep_readinto_loop n r1 : forall fuel out, keep (readinto_loop fuel n r1 out).
  Proof.
    induction fuel as [|fuel IH]; intros out; cbn [readinto_loop]; [kk|]. destruct (Z.of_nat (length out) <? n); [|kk].
    intros b. cbv zeta. set (av := Z.min (Z.of_nat (length (unread b))) n). destruct (n - Z.of_nat (length out) <? av); [intros r b' [= <- <-]; auto|].
    set (out1 := out ++ firstn (Z.to_nat av) (unread b)). destruct (negb (av =? 0) && (Z.of_nat (length out1) =? n)); [intros r b' [= <- <-]; auto|].
    intros r b' E. change (b_raw b) with (b_raw (set_rbuf b (b_rbuf b) (b_rpos b + Z.to_nat av))). change (b_w b) with (b_w (set_rbuf b (b_rbuf b) (b_rpos b + Z.to_nat av))).
    revert r b' E. generalize (set_rbuf b (b_rbuf b) (b_rpos b + Z.to_nat av)). intros b1.
    match goal with |- forall r b', ?m b1 = _ -> _ => enough (H : keep m) by exact (H b1) end.
    assert (Ag : forall out, keep (if r1 && negb (is_nil out) then ret out else readinto_loop fuel n r1 out)).
    { intros o. destruct (r1 && negb (is_nil o)); [kk|apply IH]. }
    destruct (b_size b <? n - Z.of_nat (length out1)); [|destruct (negb (r1 && negb (is_nil out1)))].
    - apply keep_bind; [apply keep_raw; auto|intros [|x l]; [kk|apply Ag]].
    - apply keep_bind; [apply keep_peek_unlocked|intros [|x l]; [kk|apply Ag]].
    - apply Ag.
  Qed.
  Lemma keep_reader_readinto n r1 : keep (reader_readinto n r1).
  Proof.
    unfold reader_readinto. apply keep_bind; [kk|intros _]. destruct (n =? 0); [kk|]. apply keep_bind; [apply keep_fuel|intros fuel].
    intros b. apply keep_readinto_loop.
  Qed.
  Lemma keep_mixin_seek p wh : keep (mixin_seek p wh).
  Proof. unfold mixin_seek. kk. destruct (a <? 0); kk. Qed.
  Lemma keep_mixin_tell : keep mixin_tell.
  Proof. unfold mixin_tell. kk. destruct (a <? 0); kk. Qed.
  Lemma keep_undo : keep undo_readahead.
  Proof.
    intros b. unfold undo_readahead. match goal with |- forall r b', ?m b = _ -> _ => enough (H : keep m) by exact (H b) end. kk.
  Qed.
  Lemma keep_tell k : keep (b_tell k).
  Proof.
    assert (H1 : keep reader_tell) by (unfold reader_tell; apply keep_bind; [apply keep_mixin_tell|intros n; kk]).
    assert (H2 : keep writer_tell) by (unfold writer_tell; apply keep_bind; [apply keep_mixin_tell|intros n; kk]).
    destruct k; [exact H1|exact H2|]. intros b. unfold b_tell. destruct (b_wbuf b); [apply H1|apply H2].
  Qed.

  Lemma keep_flush_loop : may_write -> forall fuel, keep (flush_loop fuel).
  Proof.
    intros [W _]. induction fuel as [|fuel IH]; cbn [flush_loop]; [kk|].
    intros b. destruct (b_wbuf b) as [|x l]; [intros r b' [= <- <-]; auto|].
    match goal with |- forall r b', ?m b = _ -> _ => enough (H : keep m) by exact (H b) end.
    apply keep_bind; [apply keep_raw; auto|intros [n|]; [|kk]]. destruct ((Z.of_nat (length (x :: l)) <? n) || (n <? 0)); kk.
  Qed.
  Lemma keep_flush_unlocked : may_write -> keep flush_unlocked.
  Proof. intros N. unfold flush_unlocked. apply keep_bind; [kk|intros _]. intros b. now apply keep_flush_loop. Qed.
  Lemma keep_writer_write d : may_write -> keep (writer_write d).
  Proof.
    intros N. unfold writer_write. apply keep_bind; [kk|intros _]. apply keep_bind; [|intros _].
    { intros b. destruct (b_size b <? Z.of_nat (length (b_wbuf b))); [now apply keep_flush_unlocked|intros r b' [= <- <-]; auto]. }
    apply keep_bind; [kk|intros _]. intros b. cbv zeta. destruct (b_size b <? Z.of_nat (length (b_wbuf b))); [|intros r b' [= <- <-]; auto].
    destruct (flush_unlocked b) as [[[]|e] b1] eqn:E; destruct (keep_flush_unlocked N _ _ _ E) as [E1 R1].
    - intros r b' [= <- <-]. auto.
    - destruct e; try (intros r b' [= <- <-]; auto; fail). destruct (b_size b1 <? Z.of_nat (length (b_wbuf b1))); intros r b' [= <- <-]; auto.
  Qed.
  Lemma keep_writer_truncate s : may_write -> keep (writer_truncate s).
  Proof.
    intros N. unfold writer_truncate. apply keep_bind; [now apply keep_flush_unlocked|intros _]. destruct N as [_ W].
    apply keep_bind; [destruct s; kk|intros p; kk].
  Qed.

  (** A stream of class [k] may do what [R] allows. *)
  Definition fits (k : bkind) : Prop := k = BReader \/ may_write.
  Lemma fits_w k : fits k -> k <> BReader -> may_write.
  Proof. intros [H|H]; [congruence|auto]. Qed.
  Ltac kw := match goal with K : fits _ |- _ => pose proof (fits_w _ K ltac:(discriminate)) as Wr end.

  Lemma keep_flush k : fits k -> keep (b_flush k).
  Proof. intros K. unfold b_flush. destruct k; [kk| |]; kw; now apply keep_flush_unlocked. Qed.
  Lemma keep_write k d : fits k -> keep (b_write k d).
  Proof.
    intros K. unfold b_write. destruct k; [kk| |]; kw.
    - now apply keep_writer_write.
    - apply keep_bind; [|intros _; now apply keep_writer_write].
      intros b. destruct (b_rbuf b); [intros r b' [= <- <-]; auto|].
      match goal with |- forall r b', ?m b = _ -> _ => enough (H : keep m) by exact (H b) end.
      apply keep_bind; [apply keep_undo|intros _; unfold reset_read_buf; kk].
  Qed.
  Lemma keep_seek k p wh : fits k -> keep (b_seek k p wh).
  Proof.
    intros K. unfold b_seek. destruct (negb (valid_whence wh)); [kk|]. destruct k.
    - apply keep_bind; [kk|intros _]. intros b.
      match goal with |- forall r b', ?m b = _ -> _ => enough (H : keep m) by exact (H b) end.
      apply keep_bind; [apply keep_mixin_seek|intros n; unfold reset_read_buf; kk].
    - kw. apply keep_bind; [now apply keep_flush_unlocked|intros _; apply keep_mixin_seek].
    - kw. apply keep_bind; [now apply keep_flush_unlocked|intros _].
      apply keep_bind; [intros b; destruct (b_rbuf b); [intros r b' [= <- <-]; auto|apply keep_undo]|intros _].
      apply keep_bind; [kk|intros n]. unfold reset_read_buf. kk. destruct (n <? 0); kk.
  Qed.
  Lemma keep_truncate k s : fits k -> keep (b_truncate k s).
  Proof.
    intros K. unfold b_truncate. destruct k; [kk| |]; kw.
    - now apply keep_writer_truncate.
    - apply keep_bind; [destruct s; [kk|apply (keep_tell BRandom)]|intros p; now apply keep_writer_truncate].
  Qed.
  Lemma keep_read k n : fits k -> keep (b_read k n).
  Proof.
    intros K. unfold b_read. destruct k; [apply keep_reader_read|kk|]. kw.
    apply keep_bind; [now apply keep_flush_unlocked|intros _; apply keep_reader_read].
  Qed.
  Lemma keep_read1 k n : fits k -> keep (b_read1 k n).
  Proof.
    intros K. unfold b_read1. destruct k; [apply keep_reader_read1|kk|]. kw.
    apply keep_bind; [now apply keep_flush_unlocked|intros _; apply keep_reader_read1].
  Qed.
  Lemma keep_peek k n : fits k -> keep (b_peek k n).
  Proof.
    intros K. assert (H : keep (reader_peek n)) by (unfold reader_peek; apply keep_bind; [kk|intros _; apply keep_peek_unlocked]).
    unfold b_peek. destruct k; [exact H|kk|]. kw. apply keep_bind; [now apply keep_flush_unlocked|intros _; exact H].
  Qed.
  Lemma keep_readinto k n r1 : fits k -> keep (b_readinto k n r1).
  Proof.
    intros K. unfold b_readinto. destruct k; [apply keep_reader_readinto|kk|]. kw.
    apply keep_bind; [now apply keep_flush_unlocked|intros _; apply keep_reader_readinto].
  Qed.
  Lemma keep_readline_loop k size : fits k -> forall fuel res, keep (readline_loop fuel k size res).
  Proof.
    intros K. induction fuel as [|fuel IH]; intros res; cbn [readline_loop]; [kk|]. destruct ((size <? 0) || (Z.of_nat (length res) <? size)); [|kk].
    apply keep_bind; [now apply keep_peek|intros ahead]. cbv zeta. apply keep_bind; [now apply keep_read|intros [[|x l]|]; [kk| |kk]].
    destruct (last (x :: l) 0 =? 10); [kk|apply IH].
  Qed.
  Lemma keep_readline k size : fits k -> keep (b_readline k size).
  Proof.
    intros K. assert (H : keep (fuel <- read_fuel ;; fun b => readline_loop (fuel + length (unread b) + length (b_wbuf b) + 1)%nat k size [] b)).
    { apply keep_bind; [apply keep_fuel|intros fuel]. intros b. now apply keep_readline_loop. }
    unfold b_readline. destruct k; [exact H| |exact H]. destruct (size =? 0); kk.
  Qed.
  Lemma keep_lines_loop k hint : fits k -> forall fuel n acc, keep (lines_loop fuel k hint n acc).
  Proof.
    intros K. induction fuel as [|fuel IH]; intros n acc; cbn [lines_loop]; [kk|]. apply keep_bind; [now apply keep_readline|intros [|x l]; [kk|]].
    cbv zeta. destruct ((0 <? hint) && (hint <=? n + Z.of_nat (length (x :: l)))); [kk|apply IH].
  Qed.
  Lemma keep_call k m : fits k -> plain m -> keep (call k m).
  Proof.
    intros K P. assert (As : forall A (g : A -> bvalue) x, keep x -> keep (as_ g x)) by (intros A g x H; unfold as_; apply keep_bind; [exact H|intros a; kk]).
    destruct m; cbn [call]; try (now elim P); apply As.
    - now apply keep_read.
    - now apply keep_read1.
    - now apply keep_peek.
    - now apply keep_readinto.
    - now apply keep_readline.
    - unfold b_readlines. apply keep_bind; [kk|intros _]. apply keep_bind; [apply keep_fuel|intros fuel]. intros b. now apply keep_lines_loop.
    - now apply keep_write.
    - unfold b_writelines. apply keep_bind; [kk|intros _]. induction ds as [|d ds IH]; cbn [write_all]; [kk|]. apply keep_bind; [now apply keep_write|intros _; exact (IH Logic.I)].
    - now apply keep_seek.
    - apply keep_tell.
    - now apply keep_truncate.
    - now apply keep_flush.
    - unfold b_fsize. apply keep_bind; [now apply keep_flush|intros _; kk].
    - unfold b_sync. apply keep_bind; [now apply keep_flush|intros _; kk].
  Qed.

  (** * Text streams *)
  Ltac tk1 := first [apply tkeep_ret | apply tkeep_raise | apply tkeep_bind; [|intros ?]
    | apply tkeep_upd; intros ?; reflexivity | apply tkeep_pure; intros ?; reflexivity | solve [auto] ].
  Ltac tk := repeat tk1.
  Ltac texact := match goal with |- forall r t', ?m ?t = _ -> _ => let H := fresh in enough (H : tkeep m) by exact (H t) end.
  Section Text.
    Variable c : tconf.
    Hypothesis K : fits (tc_kind c).

    Lemma tkeep_closed : tkeep t_check_closed.
    Proof. intros t r t'. unfold t_check_closed. destruct (f_closed (b_raw (t_b t))); intros [= <- <-]; auto. Qed.
    Lemma tkeep_readable : tkeep (t_check_readable c).
    Proof. unfold t_check_readable. destruct (tc_kind c); first [apply tkeep_closed|tk]. Qed.
    Lemma tkeep_flush : tkeep (t_flush c).
    Proof. unfold t_flush. apply tkeep_bind; [apply tkeep_b; now apply keep_flush|intros _; tk]. Qed.
    Lemma tkeep_decode i f : tkeep (t_decode c i f).
    Proof. intros t r t'. unfold t_decode. destruct (dec_decode c (t_decoder c t) i f) as [[o d]|]; intros [= <- <-]; auto. Qed.
    Lemma tkeep_make : tkeep (t_make_decoder c).
    Proof. unfold t_make_decoder. apply tkeep_upd. intros t. destruct (t_dec t); reflexivity. Qed.
    Lemma tkeep_get n : tkeep (get_chars n).
    Proof. intros t r t' [= <- <-]. auto. Qed.
    Lemma tkeep_rewind n : tkeep (rewind_chars n).
    Proof. intros t r t'. unfold rewind_chars. destruct (t_used t <? n)%nat; intros [= <- <-]; auto. Qed.
    Lemma tkeep_unsnap : tkeep (upd_t (fun t => match t_snap t with Some _ => set_snap (set_chars t [] 0) None | None => t end)).
    Proof. apply tkeep_upd. intros t. destruct (t_snap t); reflexivity. Qed.
    Lemma tkeep_undec : tkeep (upd_t (fun t => match t_dec t with Some d => set_dec t (Some (dec_reset c d)) | None => t end)).
    Proof. apply tkeep_upd. intros t. destruct (t_dec t); reflexivity. Qed.
    Lemma tkeep_chunk : tkeep (read_chunk c).
    Proof.
      intros t. unfold read_chunk. destruct (t_dec t) as [d|]; [|intros r t' [= <- <-]; auto]. destruct (dec_getstate c d) as [db df]. texact.
      apply tkeep_bind; [apply tkeep_b; now apply keep_read1|intros [chunk|]; [|tk]]. cbv zeta.
      apply tkeep_bind; [apply tkeep_decode|intros out]. tk. destruct (t_telling t); tk.
    Qed.
    Lemma tkeep_fuel : tkeep chunk_fuel.
    Proof. intros t. unfold chunk_fuel. texact. apply tkeep_bind; [apply tkeep_b, keep_fuel|intros n; tk]. Qed.
    Lemma tkeep_read_loop size : forall fuel res, tkeep (read_loop fuel c size res).
    Proof.
      induction fuel as [|fuel IH]; intros res; cbn [read_loop]; [tk|]. destruct (length res <? size)%nat; [|tk].
      apply tkeep_bind; [apply tkeep_chunk|intros more]. apply tkeep_bind; [apply tkeep_get|intros out]. destruct more; [apply IH|tk].
    Qed.
    Lemma tkeep_read n : tkeep (t_read c n).
    Proof.
      unfold t_read. cbv zeta. apply tkeep_bind; [apply tkeep_readable|intros _]. apply tkeep_bind; [apply tkeep_make|intros _].
      destruct ((match n with None => -1 | Some n => n end) <? 0).
      - apply tkeep_bind; [apply tkeep_get|intros a]. apply tkeep_bind; [apply tkeep_b; now apply keep_read|intros [b|]; [|tk]].
        apply tkeep_bind; [apply tkeep_decode|intros r]. apply tkeep_bind; [apply tkeep_unsnap|intros _; tk].
      - apply tkeep_bind; [apply tkeep_get|intros r]. apply tkeep_bind; [apply tkeep_fuel|intros fuel; apply tkeep_read_loop].
    Qed.
    Lemma tkeep_fetch : forall fuel, tkeep (fetch fuel c).
    Proof.
      induction fuel as [|fuel IH]; cbn [fetch]; [tk|]. apply tkeep_bind; [apply tkeep_chunk|intros more]. intros t.
      destruct (negb more); [intros r t' [= <- <-]; auto|]. destruct (t_chars t); [apply IH|intros r t' [= <- <-]; auto].
    Qed.
    Lemma tkeep_line_loop size : forall fuel line start, tkeep (tline_loop fuel c size line start).
    Proof.
      assert (Fi : forall (line : list Z) e, tkeep (rewind_chars (length line - e) ;; ret (firstn e line))) by (intros line e; apply tkeep_bind; [apply tkeep_rewind|intros _; tk]).
      induction fuel as [|fuel IH]; intros line start; cbn [tline_loop]; [tk|]. cbv zeta.
      destruct (find_end c line start) as [e|]; [apply Fi|]. destruct (over size (length line)); [apply Fi|].
      apply tkeep_bind; [apply tkeep_fuel|intros f]. apply tkeep_bind; [apply tkeep_fetch|intros _]. intros t.
      destruct (t_chars t) as [|x l]; [intros r t' [= <- <-]; auto|]. texact. apply tkeep_bind; [apply tkeep_get|intros more; apply IH].
    Qed.
    Lemma tkeep_readline n : tkeep (t_readline c n).
    Proof.
      unfold t_readline. apply tkeep_bind; [apply tkeep_closed|intros _]. apply tkeep_bind; [apply tkeep_get|intros line].
      apply tkeep_bind; [apply tkeep_make|intros _]. apply tkeep_bind; [apply tkeep_fuel|intros fuel; apply tkeep_line_loop].
    Qed.
    Lemma tkeep_next : tkeep (t_next c).
    Proof. unfold t_next. apply tkeep_bind; [tk|intros _]. apply tkeep_bind; [apply tkeep_readline|intros [|x l]; tk]. Qed.
    Lemma tkeep_write s : tkeep (t_write c s).
    Proof.
      unfold t_write. apply tkeep_bind; [apply tkeep_closed|intros _]. cbv zeta. intros t.
      match goal with |- context [cd_encode ?a ?e ?s] => destruct (cd_encode a e s) as [[b e']|]; [|intros r t' [= <- <-]; auto] end.
      texact. apply tkeep_bind; [tk|intros _]. apply tkeep_bind; [apply tkeep_b; now apply keep_write|intros n].
      apply tkeep_bind; [match goal with |- tkeep (if ?x then _ else _) => destruct x; [apply tkeep_flush|tk] end|intros _].
      apply tkeep_bind; [apply tkeep_unsnap|intros _]. apply tkeep_bind; [apply tkeep_undec|intros _; tk].
    Qed.
    Variable guess : nat -> nat -> nat -> Z.
    Lemma tkeep_tell : tkeep (t_tell guess c).
    Proof.
      unfold t_tell. apply tkeep_bind; [|intros _].
      { intros t. destruct (negb (t_seekable t)); [|destruct (negb (t_telling t))]; intros r t' [= <- <-]; auto. }
      apply tkeep_bind; [apply tkeep_flush|intros _]. apply tkeep_bind; [apply tkeep_b, keep_tell|intros p].
      intros t r t' E. assert (t' = t); [|subst; auto]. revert E.
      destruct (t_dec t) as [d|]; [|destruct (t_chars t); congruence]. destruct (t_snap t) as [[fl inp]|]; [|destruct (t_chars t); congruence].
      cbv zeta. destruct (t_used t =? 0)%nat; [congruence|]. match goal with |- match ?x with _ => _ end = _ -> _ => destruct x; congruence end.
    Qed.
    Lemma tkeep_seek_to n : tkeep (t_seek_to c n).
    Proof.
      unfold t_seek_to. apply tkeep_bind; [destruct (n <? 0); tk|intros _]. apply tkeep_bind; [apply tkeep_flush|intros _]. cbv zeta.
      apply tkeep_bind; [apply tkeep_b; now apply keep_seek|intros p]. apply tkeep_bind; [tk|intros _].
      apply tkeep_bind; [|intros _].
      { apply tkeep_upd. intros t. destruct (t_dec t); [destruct (n =? 0); reflexivity|].
        destruct (negb (ck_flags (unpack_cookie n) =? 0) || negb (ck_skip (unpack_cookie n) =? 0)); reflexivity. }
      apply tkeep_bind; [|intros _; unfold reset_encoder; tk]. destruct (ck_skip (unpack_cookie n) =? 0); [tk|].
      apply tkeep_bind; [apply tkeep_b; now apply keep_read|intros [inp|]; [|tk]]. apply tkeep_bind; [apply tkeep_decode|intros out].
      apply tkeep_bind; [tk|intros _]. destruct (Z.of_nat (length out) <? ck_skip (unpack_cookie n)); tk.
    Qed.
    Lemma tkeep_seek n wh : tkeep (t_seek guess c n wh).
    Proof.
      unfold t_seek. apply tkeep_bind; [apply tkeep_closed|intros _]. apply tkeep_bind; [|intros _].
      { intros t. destruct (negb (t_seekable t)); intros r t' [= <- <-]; auto. }
      destruct (wh =? 1); [destruct (negb (n =? 0)); [tk|]|destruct (wh =? 2); [destruct (negb (n =? 0)); [tk|]|destruct (negb (wh =? 0)); [tk|]]].
      - apply tkeep_bind; [apply tkeep_tell|intros m; apply tkeep_seek_to].
      - apply tkeep_bind; [apply tkeep_flush|intros _]. apply tkeep_bind; [apply tkeep_b; now apply keep_seek|intros p].
        apply tkeep_bind; [tk|intros _]. apply tkeep_bind; [apply tkeep_undec|intros _]. unfold reset_encoder. tk.
      - apply tkeep_seek_to.
    Qed.
    Lemma tkeep_truncate n : tkeep (t_truncate guess c n).
    Proof.
      unfold t_truncate. apply tkeep_bind; [apply tkeep_flush|intros _]. apply tkeep_bind; [destruct n; [tk|apply tkeep_tell]|intros p].
      apply tkeep_b. now apply keep_truncate.
    Qed.
    Lemma tkeep_method m t : b_raw (t_b (run_tmethod guess c m t)) = b_raw (t_b t)
      /\ R (b_raw (t_b t)) (b_w (t_b t)) (b_w (t_b (run_tmethod guess c m t))).
    Proof.
      assert (H : forall A (x : T A), tkeep x -> b_raw (t_b (snd (x t))) = b_raw (t_b t) /\ R (b_raw (t_b t)) (b_w (t_b t)) (b_w (t_b (snd (x t))))).
      { intros A x Hx. destruct (x t) as [r t'] eqn:E. exact (Hx _ _ _ E). }
      destruct m; cbn [run_tmethod]; apply H.
      - apply tkeep_read.
      - apply tkeep_readline.
      - apply tkeep_next.
      - apply tkeep_write.
      - apply tkeep_tell.
      - apply tkeep_seek.
      - apply tkeep_truncate.
      - apply tkeep_flush.
      - unfold t_size. apply tkeep_bind; [apply tkeep_flush|intros _]. apply tkeep_b. unfold b_fsize. apply keep_bind; [now apply keep_flush|intros _; kk].
      - unfold t_sync. apply tkeep_bind; [apply tkeep_flush|intros _]. apply tkeep_b. unfold b_sync. apply keep_bind; [now apply keep_flush|intros _; kk].
    Qed.
  End Text.
End Keep.

(** * The raw stream *)
Lemma rawf_confined fd w w' : rawf fd w w' -> confined fd w w'.
Proof.
  intros []. constructor; auto.
  - unfold same_ofd in rf_fd. destruct (w_fds w fd), (w_fds w' fd); cbn; try contradiction; [|reflexivity]. f_equal. apply rf_fd.
  - intros v Hv. apply rf_inodes. intros o Ho E. apply Hv. rewrite Ho. cbn. congruence.
Qed.
Definition Rf (f : rawio) (w w' : world) : Prop := rawf (fd_of f) w w'.
Lemma Rf_refl f w : Rf f w w.
Proof. apply rawf_refl. Qed.
Lemma Rf_trans f a b c : Rf f a b -> Rf f b c -> Rf f a c.
Proof. apply rawf_trans. Qed.
Lemma Rf_writes : may_write Rf.
Proof. split; intros x f w r w' H; [exact (raw_write_within f x w r w' H)|exact (raw_truncate_within f x w r w' H)]. Qed.
Lemma fuel_same f w r w' : readall_fuel f w = (r, w') -> w' = w.
Proof. unfold readall_fuel. now intros [= _ <-]. Qed.

(** Reading, seeking and syncing change the bytes of no file. *)
Definition Rb (f : rawio) (w w' : world) : Prop := same_bytes w w'.
Lemma same_bytes_refl w : same_bytes w w.
Proof. intros v i H K. eauto. Qed.
Lemma same_bytes_trans a b c : same_bytes a b -> same_bytes b c -> same_bytes a c.
Proof.
  intros H1 H2 v i E K. destruct (H1 v i E K) as (j & E1 & D1 & K1). destruct (H2 v j E1 ltac:(congruence)) as (l & E2 & D2 & K2).
  exists l. split; [exact E2|split; congruence].
Qed.
Lemma same_bytes_ino w w' : w_inodes w' = w_inodes w -> same_bytes w w'.
Proof. intros E v i H K. rewrite E. eauto. Qed.
Definition sb {A} (m : M A) : Prop := forall w r w', m w = (r, w') -> same_bytes w w'.
Lemma sb_ret {A} (a : A) : sb (ret a).
Proof. intros w r w' [= <- <-]. apply same_bytes_refl. Qed.
Lemma sb_raise {A} e : sb (raise e : M A).
Proof. intros w r w' [= <- <-]. apply same_bytes_refl. Qed.
Lemma sb_bind {A X} (m : M A) (g : A -> M X) : sb m -> (forall a, sb (g a)) -> sb (bind m g).
Proof.
  intros Hm Hg w r w'. unfold bind. destruct (m w) as [[a|e] w1] eqn:E; intros H.
  - eapply same_bytes_trans; [eapply Hm; eauto|eapply Hg; eauto].
  - injection H as <- <-. eapply Hm; eauto.
Qed.
Lemma sb_get_fd fd : sb (get_fd fd).
Proof. intros w r w' E. apply get_fd_cases in E as [-> _]. apply same_bytes_refl. Qed.
Lemma sb_fstat fd : sb (sys_fstat fd).
Proof. unfold sys_fstat. apply sb_bind; [apply sb_get_fd|intros [o i]; apply sb_ret]. Qed.
Lemma sb_lseek fd off wh : sb (sys_lseek fd off wh).
Proof.
  unfold sys_lseek. apply sb_bind; [apply sb_get_fd|intros [o i]]. cbv zeta.
  assert (H : forall b, sb (match b with None => raise (EOS EINVAL) | Some b => if b + off <? 0 then raise (EOS EINVAL)
     else fun w => (Ok (b + off), upd_fd w fd (Some (set_pos o (b + off)))) end)).
  { intros [b|]; [|apply sb_raise]. destruct (b + off <? 0); [apply sb_raise|]. intros w r w' [= <- <-]. now apply same_bytes_ino. }
  destruct (n_kind i); [apply H|apply H|apply sb_raise].
Qed.
Lemma uid_eqb_true a b : uid_eqb a b = true -> a = b.
Proof. unfold uid_eqb. intros H. apply andb_true_iff in H as [H1 H2]. apply Z.eqb_eq in H1, H2. destruct a, b. cbn in *. congruence. Qed.
Lemma same_bytes_upd w u i i' : w_inodes w u = Some i -> n_kind i' = n_kind i -> (n_kind i <> KPipe -> n_data i' = n_data i) ->
  same_bytes w (upd_ino w u i').
Proof.
  intros E K D v j Hv Hk. cbn. unfold upd. destruct (uid_eqb u v) eqn:Eu.
  - apply uid_eqb_true in Eu. subst v. assert (j = i) by congruence. subst j. eauto.
  - eauto.
Qed.
Lemma sb_read fd n : sb (sys_read fd n).
Proof.
  intros w r w'. unfold sys_read, bind. destruct (get_fd fd w) as [r1 w1] eqn:E.
  apply get_fd_cases in E. destruct E as [-> [->|(o & i & Ho & Hi & ->)]].
  { intros [= <- <-]. apply same_bytes_refl. }
  destruct (negb (o_rd o)). { intros [= <- <-]. apply same_bytes_refl. }
  destruct (n_kind i) eqn:Ek.
  - destruct (n <? 0). { intros [= <- <-]. apply same_bytes_refl. }
    rewrite next_io_eq. destruct (hd IoFull (w_io w)); intros [= <- <-]; now apply same_bytes_ino.
  - intros [= <- <-]. apply same_bytes_refl.
  - destruct (n <? 0). { intros [= <- <-]. apply same_bytes_refl. }
    rewrite next_io_eq. destruct (hd IoFull (w_io w)); intros [= <- <-]; try (now apply same_bytes_ino);
      (eapply same_bytes_trans; [apply (same_bytes_ino w (set_io w (tl (w_io w)))); reflexivity|]; apply (same_bytes_upd _ _ i); [exact Hi|cbn; congruence|congruence]).
Qed.
Lemma sb_sync fd : sb (sys_flush_to_disk fd).
Proof.
  intros w r w'. unfold sys_flush_to_disk, bind. destruct (get_fd fd w) as [r1 w1] eqn:E.
  apply get_fd_cases in E. destruct E as [-> [->|(o & i & Ho & Hi & ->)]].
  { intros [= <- <-]. apply same_bytes_refl. }
  rewrite next_io_eq. destruct (hd IoFull (w_io w)); intros [= <- <-]; try (now apply same_bytes_ino);
    (eapply same_bytes_trans; [apply (same_bytes_ino w (set_io w (tl (w_io w)))); reflexivity|]; apply (same_bytes_upd _ _ i); [exact Hi|reflexivity|reflexivity]).
Qed.
Lemma sb_closed f : sb (check_closed f).
Proof. unfold check_closed. destruct (f_closed f); [apply sb_raise|apply sb_ret]. Qed.
Lemma sb_readable f : sb (check_readable f).
Proof. unfold check_readable. apply sb_bind; [apply sb_closed|intros _]. destruct (f_readable f); [apply sb_ret|apply sb_raise]. Qed.
Lemma sb_inner_read f n : sb (inner_read f n).
Proof.
  intros w r w'. unfold inner_read. destruct (sys_read (fd_of f) n w) as [r1 w1] eqn:E. apply sb_read in E. intros H.
  destruct r1 as [d|[]]; try (injection H as <- <-; exact E).
  destruct (errno =? EAGAIN); [|destruct (errno =? EPIPE)]; injection H as <- <-; exact E.
Qed.
Lemma sb_readall f : sb (raw_readall f).
Proof.
  assert (H : forall k acc, sb (readall_loop k f acc)).
  { induction k; intros acc; cbn [readall_loop]; [apply sb_raise|]. apply sb_bind.
    - apply sb_bind; [apply sb_closed|intros _]. apply sb_bind; [apply sb_readable|intros _]. apply sb_inner_read.
    - intros [[|x d]|]; try apply sb_ret. apply IHk. }
  apply sb_bind; [|intros; apply H]. intros w r w' E. apply fuel_same in E. subst. apply same_bytes_refl.
Qed.
Lemma sb_raw_read f n : sb (raw_read f n).
Proof.
  apply sb_bind; [apply sb_closed|intros _]. apply sb_bind; [apply sb_readable|intros _].
  destruct n as [n|]; [|apply sb_readall]. destruct (n <? 0); [apply sb_readall|apply sb_inner_read].
Qed.
Lemma sb_readinto f n : sb (raw_readinto f n).
Proof.
  apply sb_bind; [apply sb_closed|intros _]. apply sb_bind; [apply sb_readable|intros _].
  apply sb_bind; [apply sb_inner_read|intros [d|]]; [apply sb_ret|apply sb_raise].
Qed.
Lemma sb_attempt m k : sb m -> sb k -> sb (attempt_os m k).
Proof.
  intros Hm Hk w r w'. unfold attempt_os. destruct (m w) as [r1 w1] eqn:E. apply Hm in E.
  destruct r1 as [x|[]]; try (intros [= <- <-]; exact E). intros H. eapply same_bytes_trans; [exact E|]. eapply Hk; eauto.
Qed.
Lemma sb_raw_sync h f md fl : sb (raw_sync h f md fl).
Proof.
  apply sb_bind; [apply sb_closed|intros _]. unfold inner_sync. destruct fl, (negb md && h); repeat apply sb_attempt; apply sb_sync.
Qed.

(** A call of a buffered stream changes nothing but its descriptor's position and its file, whatever the state and the outcome. *)
Theorem C65_buffered_confined : forall k m b r b', plain m -> call k m b = (r, b') ->
  b_raw b' = b_raw b /\ confined (fd_of (b_raw b)) (b_w b) (b_w b').
Proof.
  intros k m b r b' P E.
  assert (H : keep Rf (call k m)).
  { apply keep_call; try exact P; try (right; exact Rf_writes); unfold rkeep, Rf; intros.
    - apply rawf_refl.
    - eapply rawf_trans; eauto.
    - eapply raw_read_within; eauto.
    - eapply raw_readall_within; eauto.
    - eapply raw_readinto_within; eauto.
    - eapply raw_seek_within; eauto.
    - eapply raw_tell_within; eauto.
    - match goal with H : readall_fuel _ _ = _ |- _ => apply fuel_same in H; subst end. apply rawf_refl.
    - eapply raw_size_within; eauto.
    - eapply check_closed_within; eauto.
    - eapply raw_sync_within; eauto. }
  destruct (H b r b' E) as [E1 R1]. split; [exact E1|now apply rawf_confined].
Qed.
Theorem C65_text_confined : forall guess c m t,
  b_raw (t_b (run_tmethod guess c m t)) = b_raw (t_b t)
  /\ confined (fd_of (b_raw (t_b t))) (b_w (t_b t)) (b_w (t_b (run_tmethod guess c m t))).
Proof.
  intros guess c m t. enough (H : b_raw (t_b (run_tmethod guess c m t)) = b_raw (t_b t) /\ Rf (b_raw (t_b t)) (b_w (t_b t)) (b_w (t_b (run_tmethod guess c m t)))).
  { destruct H as [E R]. split; [exact E|now apply rawf_confined]. }
  apply tkeep_method; try (right; exact Rf_writes); unfold rkeep, Rf; intros.
  - apply rawf_refl.
  - eapply rawf_trans; eauto.
  - eapply raw_read_within; eauto.
  - eapply raw_readall_within; eauto.
  - eapply raw_seek_within; eauto.
  - eapply raw_tell_within; eauto.
  - match goal with H : readall_fuel _ _ = _ |- _ => apply fuel_same in H; subst end. apply rawf_refl.
  - eapply raw_size_within; eauto.
  - eapply check_closed_within; eauto.
  - eapply raw_sync_within; eauto.
Qed.
(** The calls of a reader change the bytes of no file at all. *)
Theorem C65_reader_changes_nothing : forall m b r b', plain m -> call BReader m b = (r, b') -> same_bytes (b_w b) (b_w b').
Proof.
  intros m b r b' P E. assert (H : keep Rb (call BReader m)); [|exact (proj2 (H b r b' E))].
  apply keep_call; try exact P; try (left; reflexivity); unfold rkeep, Rb; intros.
  - apply same_bytes_refl.
  - eapply same_bytes_trans; eauto.
  - eapply sb_raw_read; eauto.
  - eapply sb_readall; eauto.
  - eapply sb_readinto; eauto.
  - match goal with H : raw_seek ?f ?o ?wh _ = _ |- _ => refine (sb_bind (check_closed f) (fun _ => sys_lseek (fd_of f) o wh) _ _ _ _ _ H); [apply sb_closed|intros; apply sb_lseek] end.
  - match goal with H : raw_tell ?f _ = _ |- _ => refine (sb_bind (check_closed f) (fun _ => sys_lseek (fd_of f) 0 1) _ _ _ _ _ H); [apply sb_closed|intros; apply sb_lseek] end.
  - match goal with H : readall_fuel _ _ = _ |- _ => apply fuel_same in H; subst end. apply same_bytes_refl.
  - match goal with H : raw_size ?f _ = _ |- _ => refine (sb_bind (check_closed f) (fun _ => inner_size f) _ _ _ _ _ H); [apply sb_closed|intros; unfold inner_size; apply sb_bind; [apply sb_fstat|intros; apply sb_ret]] end.
  - eapply sb_closed; eauto.
  - eapply sb_raw_sync; eauto.
Qed.
Theorem C65_text_reader_changes_nothing : forall guess c m t, tc_kind c = BReader ->
  same_bytes (b_w (t_b t)) (b_w (t_b (run_tmethod guess c m t))).
Proof.
  intros guess c m t K. enough (H : b_raw (t_b (run_tmethod guess c m t)) = b_raw (t_b t) /\ Rb (b_raw (t_b t)) (b_w (t_b t)) (b_w (t_b (run_tmethod guess c m t)))) by apply H.
  apply tkeep_method; try (left; exact K); unfold rkeep, Rb; intros.
  - apply same_bytes_refl.
  - eapply same_bytes_trans; eauto.
  - eapply sb_raw_read; eauto.
  - eapply sb_readall; eauto.
  - match goal with H : raw_seek ?f ?o ?wh _ = _ |- _ => refine (sb_bind (check_closed f) (fun _ => sys_lseek (fd_of f) o wh) _ _ _ _ _ H); [apply sb_closed|intros; apply sb_lseek] end.
  - match goal with H : raw_tell ?f _ = _ |- _ => refine (sb_bind (check_closed f) (fun _ => sys_lseek (fd_of f) 0 1) _ _ _ _ _ H); [apply sb_closed|intros; apply sb_lseek] end.
  - match goal with H : readall_fuel _ _ = _ |- _ => apply fuel_same in H; subst end. apply same_bytes_refl.
  - match goal with H : raw_size ?f _ = _ |- _ => refine (sb_bind (check_closed f) (fun _ => inner_size f) _ _ _ _ _ H); [apply sb_closed|intros; unfold inner_size; apply sb_bind; [apply sb_fstat|intros; apply sb_ret]] end.
  - eapply sb_closed; eauto.
  - eapply sb_raw_sync; eauto.
Qed.

(** The file is written, its bytes are cut, and nothing else moves; the lock table is touched by the calls left out only. *)
Definition confined_demo : bstate :=
  let '(f, w) := demo_open "f"%string true true false (demo [1; 2; 3] [] [] []) in fresh f 8 w.
Example C65_example :
  let b1 := snd ((call BRandom (MWrite [7; 8]) ;; call BRandom (MTruncate (Some 1)) ;; call BRandom MSize) confined_demo) in
  content (b_w b1) (1, 10) = [7] /\ w_names (b_w b1) = w_names (b_w confined_demo) /\ w_kern (b_w b1) = []
  /\ w_kern (b_w (snd (call BRandom (MLock PNone PNone PNone 0 SNone) b1))) <> [].
Proof. vm_compute. repeat split; discriminate. Qed.

Print Assumptions C65_buffered_confined.
Print Assumptions C65_text_confined.
Print Assumptions C65_reader_changes_nothing.
Print Assumptions C65_text_reader_changes_nothing.
