(** Threads on one buffered stream (C75-C77): calls under a common lock are serial. *)
From Coq Require Import ZArith List Bool Lia.
From Verif Require Import M_Base M_Modes M_Registry M_Kernel M_World M_Raw M_Buffered M_Threads S_Bytes S_Raw S_Buffered
  P_BufRun S_Threads.
Import ListNotations.
Open Scope Z_scope.

(** A program run by one thread, nobody else doing anything; None: it waits for ever for a lock. *)
Fixpoint solo {A} (p : prog A) (ls : locks) (b : bstate) : option (A * locks * bstate) :=
  match p with
  | PRet a => Some (a, ls, b)
  | PAct m k => let '(x, b1) := m b in solo (k x) ls b1
  | PAcq l q => if taken_by_someone ls l then None else solo q (set_lock ls l true) b
  | PRel l q => solo q (set_lock ls l false) b
  end.

Lemma solo_seq {A C} (p : prog A) (f : A -> prog C) : forall ls b,
  solo (pseq p f) ls b = match solo p ls b with Some (a, ls1, b1) => solo (f a) ls1 b1 | None => None end.
Proof.
  induction p as [a|X m k IH|l p IH|l p IH]; intros ls b; cbn [pseq solo]; auto.
  - destruct (m b). apply IH.
  - destruct (taken_by_someone ls l); auto.
Qed.

(** [p] computes [m], and leaves the locks as they were. *)
Definition does {A} (P : locks -> Prop) (p : prog A) (m : bstate -> A * bstate) : Prop :=
  forall ls b, P ls -> solo p ls b = Some (fst (m b), ls, snd (m b)).
Definition anyl (ls : locks) : Prop := True.
Definition two_free (ls : locks) : Prop := l_read ls = false /\ l_write ls = false.

Lemma does_ext {A} (P : locks -> Prop) (p : prog A) m m' : (forall b, m b = m' b) -> does P p m -> does P p m'.
Proof. intros E H ls b Q. rewrite <- E. now apply H. Qed.
Lemma does_weak {A} (P P' : locks -> Prop) (p : prog A) m : (forall ls, P' ls -> P ls) -> does P p m -> does P' p m.
Proof. intros E H ls b Q. apply H; auto. Qed.
Lemma does_any {A} (P : locks -> Prop) (p : prog A) m : does anyl p m -> does P p m.
Proof. apply does_weak. easy. Qed.
Lemma does_ret {A} (P : locks -> Prop) (a : A) : does P (PRet a) (fun b => (a, b)).
Proof. intros ls b _. reflexivity. Qed.
Lemma does_act {X} (P : locks -> Prop) (m : B X) : does P (act m) m.
Proof. intros ls b _. unfold act. cbn [solo]. destruct (m b). reflexivity. Qed.
Lemma does_seq {A C} (P : locks -> Prop) (p : prog A) (f : A -> prog C) m (g : A -> bstate -> C * bstate) :
  does P p m -> (forall a, does P (f a) (g a)) -> does P (pseq p f) (fun b => g (fst (m b)) (snd (m b))).
Proof. intros H H2 ls b Q. rewrite solo_seq, (H ls b Q). now apply H2. Qed.
Lemma does_bind {A C} (P : locks -> Prop) (p : prog (res A)) (f : A -> prog (res C)) (m : B A) (g : A -> B C) :
  does P p m -> (forall a, does P (f a) (g a)) -> does P (pbind p f) (bind m g).
Proof.
  intros H H2 ls b Q. unfold pbind, bind. rewrite solo_seq, (H ls b Q). destruct (m b) as [[a|e] b1]; cbn [fst snd]; [now apply H2|reflexivity].
Qed.
(** binding an attribute *)
Lemma does_attr {X C} (P : locks -> Prop) (f : bstate -> X) (g : X -> prog (res C)) (m : B C) :
  (forall ls b, P ls -> solo (g (f b)) ls b = Some (fst (m b), ls, snd (m b))) -> does P (pbind (attr f) g) m.
Proof. intros H ls b Q. unfold pbind, attr, act. cbn [pseq solo]. now apply H. Qed.
Lemma set_set ls l : taken_by_someone ls l = false -> set_lock (set_lock ls l true) l false = ls.
Proof. destruct ls, l; cbn; congruence. Qed.
Lemma does_with {A} (P P' : locks -> Prop) l (p : prog A) m : (forall ls, P ls -> taken_by_someone ls l = false) ->
  (forall ls, P ls -> P' (set_lock ls l true)) -> does P' p m -> does P (with_lk l p) m.
Proof.
  intros H1 H2 H ls b Q. unfold with_lk. cbn [solo]. rewrite (H1 ls Q), solo_seq, (H _ b (H2 _ Q)). cbn [solo].
  now rewrite (set_set ls l (H1 ls Q)).
Qed.
Lemma does_with_any {A} (P : locks -> Prop) l (p : prog A) m : (forall ls, P ls -> taken_by_someone ls l = false) ->
  does anyl p m -> does P (with_lk l p) m.
Proof. intros H1 H. apply (does_with P anyl); auto. easy. Qed.
Lemma two_w ls : two_free ls -> taken_by_someone ls LWrite = false. Proof. intros [_ H]; exact H. Qed.
Lemma two_r ls : two_free ls -> taken_by_someone ls LRead = false. Proof. intros [H _]; exact H. Qed.

(** * What the methods compute alone *)

Lemma flush_loop_does n : does anyl (p_flush_loop n) (flush_loop n).
Proof.
  induction n as [|n IH]; [apply does_ret|]. cbn [p_flush_loop flush_loop]. apply does_attr. intros ls b _.
  destruct (b_wbuf b) as [|x l] eqn:E; [reflexivity|].
  apply (does_bind anyl _ _ (on_raw (fun f => raw_write f (x :: l))) (fun n0 => match n0 with
     | None => raise (EBlocking 0)
     | Some n1 => if (Z.of_nat (length (x :: l)) <? n1) || (n1 <? 0) then raise (EOS 0)
                  else (fun b => (Ok tt, set_wbuf b (skipn (Z.to_nat n1) (b_wbuf b)))) ;; flush_loop n
     end) (does_act _ _)); [|exact Logic.I].
  intros [n0|]; [|apply does_ret]. destruct ((Z.of_nat (length (x :: l)) <? n0) || (n0 <? 0)); [apply does_ret|].
  apply does_bind; [apply does_act|intros _; exact IH].
Qed.
Lemma flush_unlocked_does (P : locks -> Prop) : does P p_flush_unlocked flush_unlocked.
Proof.
  apply does_any. unfold p_flush_unlocked, flush_unlocked. apply does_bind; [apply does_act|]. intros _. apply does_attr.
  intros ls b Q. now apply flush_loop_does.
Qed.
Lemma flush_does k : does two_free (p_flush k) (b_flush k).
Proof.
  destruct k; cbn [p_flush b_flush].
  - apply does_bind; [apply does_act|intros _; apply does_act].
  - apply does_with_any; [apply two_w|apply flush_unlocked_does].
  - apply does_with_any; [apply two_w|apply flush_unlocked_does].
Qed.
Lemma writer_write_body_does d : does anyl
    (act b_check_closed ;~
     full <~ attr (fun b => b_size b <? Z.of_nat (length (b_wbuf b))) ;;
     (if full then p_flush_unlocked else pret tt) ;~
     act (fun b => (Ok tt, set_wbuf b (b_wbuf b ++ d))) ;~
     full <~ attr (fun b => b_size b <? Z.of_nat (length (b_wbuf b))) ;;
     let written := Z.of_nat (length d) in
     if full then
       pseq p_flush_unlocked (fun r =>
         match r with
         | Err (EBlocking x) =>
             act (fun b =>
                    if b_size b <? Z.of_nat (length (b_wbuf b)) then
                      let overage := Z.of_nat (length (b_wbuf b)) - b_size b in
                      (Err (EBlocking (written - overage)), set_wbuf b (firstn (Z.to_nat (b_size b)) (b_wbuf b)))
                    else (Ok written, b))
         | Err e => praise e
         | Ok _ => pret written
         end)
     else pret written) (writer_write d).
Proof.
  unfold writer_write. apply does_bind; [apply does_act|]. intros _. 
  apply does_attr. intros ls b _.
  match goal with |- solo (pbind ?p ?f) ls b = Some (fst (bind ?m ?g b), _, _) =>
    enough (H : does anyl (pbind p f) (bind (if b_size b <? Z.of_nat (length (b_wbuf b)) then flush_unlocked else ret tt) g)) end.
  { rewrite (H ls b Logic.I). unfold bind, ret. destruct (b_size b <? Z.of_nat (length (b_wbuf b))); reflexivity. }
  apply does_bind.
  { destruct (b_size b <? Z.of_nat (length (b_wbuf b))); [apply flush_unlocked_does|apply does_ret]. }
  clear. intros _. apply does_bind; [apply does_act|]. intros _. apply does_attr. intros ls b _. cbv zeta.
  destruct (b_size b <? Z.of_nat (length (b_wbuf b))); [|reflexivity].
  rewrite solo_seq, (flush_unlocked_does anyl ls b Logic.I). destruct (flush_unlocked b) as [[u|e] b1]; cbn [fst snd]; [reflexivity|].
  destruct e; try reflexivity. unfold act. cbn [solo]. destruct (b_size b1 <? Z.of_nat (length (b_wbuf b1))); reflexivity.
Qed.
Lemma writer_write_does d : does two_free (p_writer_write d) (writer_write d).
Proof. apply does_with_any; [apply two_w|apply writer_write_body_does]. Qed.

(** an attribute is tested, then something is done if it holds *)
Lemma does_if_nonempty {C} (P : locks -> Prop) (f : bstate -> list byte) (p : prog (res unit)) (q : prog (res C)) (m : B unit) (n : B C) :
  does P p m -> does P q n ->
  does P (pbind (attr (fun b => negb (is_nil (f b)))) (fun some => pbind (if some then p else pret tt) (fun _ => q)))
         (bind (fun b => match f b with [] => (Ok tt, b) | _ => m b end) (fun _ => n)).
Proof.
  intros Hp Hq. apply does_attr. intros ls b Q. unfold pbind at 1. unfold bind. destruct (f b) as [|x l]; cbn [is_nil negb].
  - cbn [pret pseq]. now apply Hq.
  - rewrite solo_seq, (Hp ls b Q). destruct (m b) as [[a|e] b1]; cbn [fst snd]; [now apply Hq|reflexivity].
Qed.

Lemma write_does k d : does two_free (p_write k d) (b_write k d).
Proof.
  destruct k; cbn [p_write b_write]; [apply does_ret|apply writer_write_does|].
  apply does_if_nonempty; [|apply writer_write_does].
  apply does_with_any; [apply two_r|]. apply does_bind; [apply does_act|intros _; apply does_act].
Qed.

Lemma seek_reader_body_does pos wh : does anyl
   (ahead <~ attr (fun b => Z.of_nat (length (unread b))) ;;
    n <~ act (mixin_seek (if wh =? 1 then pos - ahead else pos) wh) ;;
    act reset_read_buf ;~ pret n)
   (fun b => (n <- mixin_seek (if wh =? 1 then pos - Z.of_nat (length (unread b)) else pos) wh ;;
                 reset_read_buf ;; ret n) b).
Proof.
  apply does_attr. intros ls b _. 
  apply (does_bind anyl _ _ (mixin_seek (if wh =? 1 then pos - Z.of_nat (length (unread b)) else pos) wh)
    (fun n => reset_read_buf ;; ret n) (does_act _ _)); [|exact Logic.I].
  intros n. apply does_bind; [apply does_act|intros _; apply does_ret].
Qed.
Lemma seek_does k pos wh : does two_free (p_seek k pos wh) (b_seek k pos wh).
Proof.
  unfold p_seek, b_seek. destruct (negb (valid_whence wh)); [apply does_ret|]. destruct k.
  - apply does_bind; [apply does_act|]. intros _. apply does_with_any; [apply two_r|apply seek_reader_body_does].
  - apply does_with_any; [apply two_w|]. apply does_bind; [apply flush_unlocked_does|intros _; apply does_act].
  - apply does_bind; [apply (flush_does BRandom)|]. intros _. apply does_if_nonempty.
    { apply does_with_any; [apply two_r|apply does_act]. }
    apply does_bind; [apply does_act|]. intros n. apply does_bind.
    { apply does_with_any; [apply two_r|apply does_act]. }
    intros _. destruct (n <? 0); apply does_ret.
Qed.

Lemma reader_tell_does (P : locks -> Prop) : does P p_reader_tell reader_tell.
Proof. apply does_bind; [apply does_act|]. intros n. apply does_attr. intros ls b _. reflexivity. Qed.
Lemma writer_tell_does (P : locks -> Prop) : does P p_writer_tell writer_tell.
Proof. apply does_bind; [apply does_act|]. intros n. apply does_attr. intros ls b _. reflexivity. Qed.
Lemma tell_does (P : locks -> Prop) k : does P (p_tell k) (b_tell k).
Proof.
  destruct k; [apply reader_tell_does|apply writer_tell_does|]. cbn [p_tell b_tell]. apply does_attr. intros ls b Q.
  destruct (b_wbuf b); cbn [is_nil negb]; [now apply (reader_tell_does P)|now apply (writer_tell_does P)].
Qed.

Lemma truncate_body_does pos : does anyl
    (p_flush_unlocked ;~
     p <~ (match pos with None => act (on_raw raw_tell) | Some p => pret p end) ;;
     act (on_raw (fun f => raw_truncate f (Some p)))) (writer_truncate pos).
Proof.
  apply does_bind; [apply flush_unlocked_does|]. intros _. apply does_bind; [|intros p; apply does_act].
  destruct pos; [apply does_ret|apply does_act].
Qed.
Lemma truncate_does k pos : does two_free (p_truncate k pos) (b_truncate k pos).
Proof.
  assert (W : forall q, does two_free (p_writer_truncate q) (writer_truncate q)).
  { intros q. apply does_with_any; [apply two_w|apply truncate_body_does]. }
  destruct k; cbn [p_truncate b_truncate].
  - apply does_bind; [apply does_act|intros _; apply does_ret].
  - apply W.
  - apply does_bind; [destruct pos; [apply does_ret|apply tell_does]|intros p; apply W].
Qed.

Lemma fill_loop_does n : forall wanted m out, does anyl (p_fill_loop n wanted m out) (fill_loop n wanted m out).
Proof.
  induction n as [|n IH]; intros; cbn [p_fill_loop fill_loop]; [apply does_ret|].
  destruct (Z.of_nat (length out) <? m); [|apply does_ret]. apply does_bind; [apply does_act|].
  intros [[|x c]|]; [apply does_ret|apply IH|apply does_ret].
Qed.
Lemma read_unlocked_does n : does anyl (p_read_unlocked n) (read_unlocked n).
Proof.
  unfold p_read_unlocked, read_unlocked. apply does_attr. intros ls b _. cbv zeta.
  destruct (match n with None => true | Some k => k =? -1 end).
  - apply (does_bind anyl _ _ reset_read_buf (fun _ => c <- on_raw raw_readall ;;
       match c with None => ret (match unread b with [] => None | l => Some l end) | Some c => ret (Some (unread b ++ c)) end) (does_act _ _));
      [|exact Logic.I].
    intros _. apply does_bind; [apply does_act|]. intros [c|]; [apply does_ret|]. intros ls0 b0 _. cbn. destruct (unread b); reflexivity.
  - set (z := match n with Some k => k | None => 0 end). destruct (z <=? Z.of_nat (length (unread b))); [reflexivity|].
    unfold pbind at 1, attr at 1, act at 1. cbn [pseq solo].
    apply (does_bind anyl _ _ read_fuel (fun fuel => r <- fill_loop fuel (Z.max (b_size b) z) z (unread b) ;;
         let '(out, nodata) := r in
         let m := Z.to_nat (Z.min z (Z.of_nat (length out))) in
         (fun b => (Ok tt, set_rbuf b (skipn m out) 0)) ;;
         ret (match out with [] => nodata | _ => Some (firstn m out) end)) (does_act _ _)); [|exact Logic.I].
    intros fuel. apply does_bind; [apply fill_loop_does|]. intros [out nodata]. cbv zeta.
    apply does_bind; [apply does_act|]. intros _. apply does_ret.
Qed.
Lemma reader_read_does n : does two_free (p_reader_read n) (reader_read n).
Proof.
  unfold p_reader_read, reader_read. destruct (match n with Some k => k <? -1 | None => false end); [apply does_ret|].
  apply does_with_any; [apply two_r|apply read_unlocked_does].
Qed.
Lemma read_does k n : does two_free (p_read k n) (b_read k n).
Proof.
  destruct k; cbn [p_read b_read]; [apply reader_read_does|apply does_ret|].
  apply does_bind; [apply (flush_does BRandom)|intros _; apply reader_read_does].
Qed.
Lemma peek_unlocked_does n : does anyl (p_peek_unlocked n) (peek_unlocked n).
Proof.
  unfold p_peek_unlocked, peek_unlocked. apply does_attr. intros ls b _. cbv zeta.
  unfold pbind at 1, attr at 1, act at 1. cbn [pseq solo]. unfold bind at 1 3.
  match goal with |- context [if ?c then _ else _] => destruct c end; [|reflexivity].
  unfold pbind, act, bind. cbn [pseq solo].
  destruct (on_raw (fun f => raw_read f (Some (b_size b - Z.of_nat (length (unread b))))) b) as [[[[|x c]|]|e] b1]; reflexivity.
Qed.
Lemma reader_peek_does n : does two_free (p_reader_peek n) (reader_peek n).
Proof.
  apply does_bind; [apply does_act|]. intros _. apply does_with_any; [apply two_r|apply peek_unlocked_does].
Qed.
Lemma peek_does k n : does two_free (p_peek k n) (b_peek k n).
Proof.
  destruct k; cbn [p_peek b_peek]; [apply reader_peek_does|apply does_ret|].
  apply does_bind; [apply (flush_does BRandom)|intros _; apply reader_peek_does].
Qed.
Lemma read1_body_does n : does anyl
   (p_peek_unlocked 1 ;~
    have <~ attr (fun b => Z.of_nat (length (unread b))) ;;
    p_read_unlocked (Some (Z.min n have)))
   (peek_unlocked 1 ;; fun b => read_unlocked (Some (Z.min n (Z.of_nat (length (unread b))))) b).
Proof.
  apply does_bind; [apply peek_unlocked_does|]. intros _. apply does_attr. intros ls b _. now apply read_unlocked_does.
Qed.
Lemma reader_read1_does n : does two_free (p_reader_read1 n) (reader_read1 n).
Proof.
  apply does_bind; [apply does_act|]. intros _. apply does_attr. intros ls b Q. cbv zeta.
  destruct ((if n <? 0 then b_size b else n) =? 0); [reflexivity|].
  apply (does_with_any two_free LRead _ _ two_r (read1_body_does _)), Q.
Qed.
Lemma read1_does k n : does two_free (p_read1 k n) (b_read1 k n).
Proof.
  destruct k; cbn [p_read1 b_read1]; [apply reader_read1_does|apply does_ret|].
  apply does_bind; [apply (flush_does BRandom)|intros _; apply reader_read1_does].
Qed.
Lemma readline_loop_does n : forall k size got, does two_free (p_readline_loop n k size got) (readline_loop n k size got).
Proof.
  induction n as [|n IH]; intros; cbn [p_readline_loop readline_loop]; [apply does_ret|].
  destruct ((size <? 0) || (Z.of_nat (length got) <? size)); [|apply does_ret].
  apply does_bind; [apply peek_does|]. intros ahead. cbv zeta. apply does_bind; [apply read_does|].
  intros [[|x d]|]; [apply does_ret| |apply does_ret]. destruct (last (x :: d) 0 =? 10); [apply does_ret|apply IH].
Qed.
Lemma readline_does k n : does two_free (p_readline k n) (b_readline k n).
Proof.
  assert (G : forall k, does two_free (fuel <~ act read_fuel ;;
      more <~ attr (fun b => length (unread b) + length (b_wbuf b) + 1)%nat ;;
      p_readline_loop (fuel + more)%nat k n [])
      (fuel <- read_fuel ;; fun b => readline_loop (fuel + length (unread b) + length (b_wbuf b) + 1)%nat k n [] b)).
  { intros k'. apply does_bind; [apply does_act|]. intros fuel. apply does_attr. intros ls b Q. rewrite (readline_loop_does _ _ _ _ ls b Q).
    now rewrite !Nat.add_assoc. }
  destruct k; cbn [p_readline b_readline]; auto. destruct (n =? 0); apply does_ret.
Qed.
Lemma size_does k : does two_free (p_size k) (b_fsize k).
Proof. apply does_bind; [apply flush_does|intros _; apply does_act]. Qed.
Lemma close_does k : does two_free (p_close k) (b_close k).
Proof.
  assert (L : forall A (p : prog (res A)) (m : B A), does anyl p m -> does two_free (closing k p) m).
  { intros A p m H. unfold closing. destruct k; try (now apply (does_with_any two_free LWrite _ _ two_w)).
    intros ls b _. now apply H. }
  pose proof (L _ _ (fun b => (Ok (f_closed (b_raw b)), b)) (does_act anyl (fun b => (Ok (f_closed (b_raw b)), b)))) as Lc.
  pose proof (L _ _ raw_close_b (does_act anyl raw_close_b)) as Lr.
  intros ls b Q. unfold p_close.
  unfold pbind, attr. rewrite solo_seq, (Lc ls b Q). cbn [fst snd]. unfold b_close. destruct (f_closed (b_raw b)); [reflexivity|].
  rewrite solo_seq, (flush_does k ls b Q). unfold finally. destruct (b_flush k b) as [r b1]. cbn [fst snd].
  rewrite solo_seq, (Lr ls b1 Q). destruct (raw_close_b b1) as [[u|e] b2]; reflexivity.
Qed.

Lemma lift_does {A} (P : locks -> Prop) (f : A -> rout) p (m : B A) : does P p m -> does P (plift f p) (fun b => blift f (m b)).
Proof.
  intros H ls b Q. unfold plift. rewrite solo_seq, (H ls b Q). destruct (m b) as [[a|e] b1]; reflexivity.
Qed.
Lemma prog_does k c : does two_free (prog_of k c) (run_tcall k c).
Proof.
  destruct c as [[n|n|n|d|off wh| | | |s]|n|]; cbn [prog_of run_tcall run_bop]; apply lift_does;
    auto using read_does, read1_does, peek_does, write_does, seek_does, tell_does, size_does, flush_does, truncate_does, readline_does, close_does.
Qed.

(** * Calls under a common lock are serial *)

Lemma nth_update_at {A} (l : list A) t x y : nth_error l t = Some y -> nth_error (nth_update l t x) t = Some x.
Proof. revert t. induction l; destruct t; cbn; try discriminate; auto. Qed.
Lemma nth_update_off {A} (l : list A) t u x : u <> t -> nth_error (nth_update l t x) u = nth_error l u.
Proof. revert t u. induction l; destruct t, u; cbn; intros; auto; try congruence. Qed.
Lemma nth_update_len {A} (l : list A) t x : length (nth_update l t x) = length l.
Proof. revert t. induction l; destruct t; cbn; auto. Qed.

Section Serial.
Context {O R : Type} (start : O -> prog R) (sem : O -> bstate -> R * bstate).
Variables (L : lk) (I : bstate -> Prop) (ok : O -> Prop).

Definition only : locks := set_lock all_free L true.

(** Does not touch [L], and keeps [I]. *)
Fixpoint confined {A} (p : prog A) : Prop :=
  match p with
  | PRet _ => True
  | PAct m k => (forall b, I b -> I (snd (m b))) /\ forall x, confined (k x)
  | PAcq l q => l <> L /\ confined q
  | PRel l q => l <> L /\ confined q
  end.

(** Releases [L] at the very end. *)
Fixpoint tail (p : prog R) : Prop :=
  match p with
  | PRet _ => False
  | PAct m k => (forall b, I b -> I (snd (m b))) /\ forall x, tail (k x)
  | PAcq l q => l <> L /\ tail q
  | PRel l q => l <> L /\ tail q \/ l = L /\ exists r, q = PRet r
  end.

(** Steps that find nothing new, then all of the work under [L]. *)
Inductive guarded : prog R -> (bstate -> R * bstate) -> Prop :=
| G_ret : forall r m, (forall b, I b -> m b = (r, b)) -> guarded (PRet r) m
| G_pre : forall X (c : bstate -> X * bstate) k x m, (forall b, I b -> c b = (x, b)) -> guarded (k x) m -> guarded (PAct c k) m
| G_acq : forall p m, tail p -> (forall b, I b -> solo p only b = Some (fst (m b), all_free, snd (m b))) ->
    guarded (PAcq L p) m.

Lemma guarded_ext p m m' : (forall b, I b -> m b = m' b) -> guarded p m -> guarded p m'.
Proof.
  intros E G. induction G as [r m H|X c k x m H G IH|p m T H].
  - apply G_ret. intros b J. rewrite <- E by auto. auto.
  - eapply G_pre; eauto.
  - apply G_acq; auto. intros b J. rewrite <- E by auto. auto.
Qed.

Hypothesis starts : forall o, ok o -> guarded (start o) (sem o).

Lemma confined_seq {A C} (p : prog A) (f : A -> prog C) : confined p -> (forall a, confined (f a)) -> confined (pseq p f).
Proof. intros H F. induction p; cbn in *; intuition. Qed.
Lemma confined_bind {A C} (p : prog (res A)) (f : A -> prog (res C)) : confined p -> (forall a, confined (f a)) -> confined (pbind p f).
Proof. intros H F. apply confined_seq; auto. intros [a|e]; [apply F|exact Logic.I]. Qed.
Lemma tail_with {A} (p : prog A) (g : A -> R) : confined p ->
  tail (pseq (pseq p (fun r => PRel L (PRet r))) (fun r => PRet (g r))).
Proof. induction p; cbn; intuition eauto. Qed.

Lemma taken_other ls l v : l <> L -> taken_by_someone (set_lock ls l v) L = taken_by_someone ls L.
Proof. destruct ls, l, L; cbn; congruence. Qed.
Lemma set_L_free : set_lock only L false = all_free.
Proof. unfold only. destruct L; reflexivity. Qed.
Lemma set_L_only : set_lock all_free L true = only. Proof. reflexivity. Qed.
Lemma free_free l : taken_by_someone all_free l = false. Proof. destruct l; reflexivity. Qed.
Lemma only_taken : taken_by_someone only L = true. Proof. unfold only. destruct L; reflexivity. Qed.

(** Thread [h] is in its locked part, with [body] left. *)
Definition holder (q : pool O R) (bl : bstate) (h : nat) : Prop :=
  exists p o todo, nth_error (q_thr q) h = Some (mkThread (Some (o, p)) todo)
    /\ tail p /\ taken_by_someone (q_locks q) L = true
    /\ solo p (q_locks q) (q_st q) = Some (fst (sem o bl), all_free, snd (sem o bl)).
Definition waiting (x : thread O R) : Prop :=
  match t_now x with None => True | Some (o, p) => guarded p (sem o) /\ (forall r, p <> PRet r) end.

Definition now_list (x : thread O R) : list O := match t_now x with None => [] | Some (o, _) => [o] end.

Record pinv (scripts : list (list O)) (b0 : bstate) (q : pool O R) (bl : bstate) : Prop := mkPinv {
  pi_log : replays sem (q_log q) b0 bl;
  pi_bl : I bl;
  pi_st : I (q_st q);
  pi_len : length (q_thr q) = length scripts;
  pi_order : forall t x, nth_error (q_thr q) t = Some x ->
    exists s, nth_error scripts t = Some s /\ s = calls_of t (q_log q) ++ now_list x ++ t_todo x;
  pi_lock : (q_locks q = all_free /\ q_st q = bl /\ forall t x, nth_error (q_thr q) t = Some x -> waiting x)
    \/ exists h, holder q bl h /\ forall t x, t <> h -> nth_error (q_thr q) t = Some x -> waiting x }.

Lemma replays_app l b b1 t o r b2 : replays sem l b b1 -> sem o b1 = (r, b2) -> replays sem (l ++ [(t, o, r)]) b b2.
Proof.
  induction 1; intros E; cbn [app].
  - econstructor; [exact E|constructor].
  - econstructor; eauto.
Qed.
Lemma calls_app t (l : list (nat * O * R)) u o r :
  calls_of t (l ++ [(u, o, r)]) = calls_of t l ++ (if Nat.eqb u t then [o] else []).
Proof.
  unfold calls_of. rewrite filter_app, map_app. f_equal. cbn [filter fst snd]. destruct (Nat.eqb u t); reflexivity.
Qed.

(** Bookkeeping: after a step of thread [t] in call [o]. *)
Lemma settle_order scripts q t x o p todo ls b :
  (forall t x, nth_error (q_thr q) t = Some x -> exists s, nth_error scripts t = Some s /\ s = calls_of t (q_log q) ++ now_list x ++ t_todo x) ->
  nth_error (q_thr q) t = Some x -> now_list x ++ t_todo x = o :: todo ->
  forall u y, nth_error (q_thr (settle t o p todo ls b q)) u = Some y ->
    exists s, nth_error scripts u = Some s /\ s = calls_of u (q_log (settle t o p todo ls b q)) ++ now_list y ++ t_todo y.
Proof.
  intros H Ht Hx u y Hu. destruct (Nat.eq_dec u t) as [->|N].
  - destruct (H t x Ht) as (s & E1 & E2). exists s. split; auto. rewrite Hx in E2. subst s.
    assert (y = mkThread (match p with PRet _ => None | _ => Some (o, p) end) todo) as ->.
    { destruct p; cbn [settle q_thr] in Hu; rewrite (nth_update_at _ _ _ _ Ht) in Hu; congruence. }
    destruct p; cbn [settle q_log now_list t_now t_todo app]; auto. rewrite calls_app, Nat.eqb_refl, <- app_assoc. reflexivity.
  - assert (nth_error (q_thr q) u = Some y) as Hu'.
    { destruct p; cbn [settle q_thr] in Hu; now rewrite (nth_update_off _ _ _ _ N) in Hu. }
    destruct (H u y Hu') as (s & E1 & E2). exists s. split; auto.
    destruct p; cbn [settle q_log]; auto. rewrite calls_app. replace (Nat.eqb t u) with false by (symmetry; now apply Nat.eqb_neq; auto).
    now rewrite app_nil_r.
Qed.
Lemma settle_len (q : pool O R) t o p todo ls b : length (q_thr (settle t o p todo ls b q)) = length (q_thr q).
Proof. destruct p; cbn [settle q_thr]; apply nth_update_len. Qed.
Lemma settle_off (q : pool O R) t o p todo ls b u : u <> t -> nth_error (q_thr (settle t o p todo ls b q)) u = nth_error (q_thr q) u.
Proof. intros N. destruct p; cbn [settle q_thr]; now apply nth_update_off. Qed.
Lemma settle_at (q : pool O R) t o p todo ls b x : nth_error (q_thr q) t = Some x ->
  nth_error (q_thr (settle t o p todo ls b q)) t = Some (mkThread (match p with PRet _ => None | _ => Some (o, p) end) todo).
Proof. intros H. destruct p; cbn [settle q_thr]; apply (nth_update_at _ _ _ _ H). Qed.
Lemma settle_locks (q : pool O R) t o p todo ls b : q_locks (settle t o p todo ls b q) = ls.
Proof. destruct p; reflexivity. Qed.
Lemma settle_st (q : pool O R) t o p todo ls b : q_st (settle t o p todo ls b q) = b.
Proof. destruct p; reflexivity. Qed.

(** A thread outside of the locked part goes on without touching anything. *)
Lemma quiet_settle scripts b0 q bl t x o p todo :
  pinv scripts b0 q bl ->
  (q_locks q = all_free /\ q_st q = bl /\ (forall t x, nth_error (q_thr q) t = Some x -> waiting x))
    \/ (exists h, h <> t /\ holder q bl h /\ forall t x, t <> h -> nth_error (q_thr q) t = Some x -> waiting x) ->
  nth_error (q_thr q) t = Some x -> now_list x ++ t_todo x = o :: todo ->
  guarded p (sem o) ->
  exists bl', pinv scripts b0 (settle t o p todo (q_locks q) (q_st q) q) bl'.
Proof.
  intros [P1 P2 P3 P4 P5 _] P6 Ht Hx G. exists bl. constructor.
  - destruct p; try exact P1. inversion G as [r m Hr| |]; subst. cbn [settle q_log]. eapply replays_app; eauto.
  - auto.
  - now rewrite settle_st.
  - now rewrite settle_len.
  - eapply settle_order; eauto.
  - assert (Hw : waiting (mkThread (match p with PRet _ => None | _ => Some (o, p) end) todo)).
    { destruct p; cbn; auto; split; auto; discriminate. }
    destruct P6 as [(Q1 & Q2 & Q3)|(h & N & Hh & Q3)].
    + left. rewrite settle_locks, settle_st. split; [auto|split; [auto|]]. intros u y Hu. destruct (Nat.eq_dec u t) as [->|N].
      * rewrite (settle_at _ _ _ _ _ _ _ _ Ht) in Hu. congruence.
      * rewrite settle_off in Hu by auto. eauto.
    + right. exists h. split.
      * destruct Hh as (p1 & o1 & todo1 & E1 & E2 & E3 & E4). exists p1, o1, todo1.
        rewrite settle_off, settle_locks, settle_st by auto. auto.
      * intros u y Hn Hu. destruct (Nat.eq_dec u t) as [->|N'].
        -- rewrite (settle_at _ _ _ _ _ _ _ _ Ht) in Hu. congruence.
        -- rewrite settle_off in Hu by auto. eauto.
Qed.

Lemma settle_tail t o p todo ls b (q : pool O R) : tail p ->
  settle t o p todo ls b q = mkPool ls b (nth_update (q_thr q) t (mkThread (Some (o, p)) todo)) (q_log q).
Proof. destruct p; [intros []| | |]; reflexivity. Qed.

(** The thread in its locked part goes on. *)
Lemma holder_settle scripts b0 q bl t x o todo p ls b :
  pinv scripts b0 q bl -> (forall t' y, t' <> t -> nth_error (q_thr q) t' = Some y -> waiting y) ->
  nth_error (q_thr q) t = Some x -> now_list x ++ t_todo x = o :: todo ->
  I b -> tail p -> taken_by_someone ls L = true ->
  solo p ls b = Some (fst (sem o bl), all_free, snd (sem o bl)) ->
  exists bl', pinv scripts b0 (settle t o p todo ls b q) bl'.
Proof.
  intros [P1 P2 P3 P4 P5 _] P6 Ht Hx J C K E. exists bl. constructor.
  - rewrite settle_tail by auto. exact P1.
  - exact P2.
  - now rewrite settle_st.
  - now rewrite settle_len.
  - eapply settle_order; eauto.
  - right. exists t. split.
    + exists p, o, todo. rewrite settle_locks, settle_st, settle_tail by auto. cbn [q_thr]. rewrite (nth_update_at _ _ _ _ Ht). auto.
    + intros u y N Hu. rewrite settle_off in Hu by auto. eauto.
Qed.

Lemma pstep_inv scripts b0 q bl t q' : Forall (Forall ok) scripts -> pinv scripts b0 q bl -> pstep start t q = Some q' ->
  exists bl', pinv scripts b0 q' bl'.
Proof.
  intros Hok H E. pose proof H as [P1 P2 P3 P4 P5 P6]. unfold pstep in E.
  destruct (nth_error (q_thr q) t) as [[[[o p]|] todo]|] eqn:Ht; [| |discriminate].
  2:{ (* a call begins *)
    destruct todo as [|o todo]; [discriminate|]. injection E as <-.
    assert (G : guarded (start o) (sem o)).
    { apply starts. destruct (P5 _ _ Ht) as (s & S1 & S2). apply nth_error_In in S1. rewrite Forall_forall in Hok.
      specialize (Hok _ S1). rewrite Forall_forall in Hok. apply Hok. rewrite S2. cbn. apply in_or_app. right. now left. }
    eapply quiet_settle; eauto.
    destruct P6 as [Q|(h & Hh & Q)]; [now left|right]. exists h. split; [|auto].
    intros ->. destruct Hh as (p1 & o1 & todo1 & E1 & _). rewrite E1 in Ht. discriminate. }
  assert (Hx : now_list (mkThread (Some (o, p)) todo) ++ t_todo (mkThread (Some (o, p)) todo) = o :: todo) by reflexivity.
  assert (Cases : (waiting (mkThread (Some (o, p)) todo) /\
      ((q_locks q = all_free /\ q_st q = bl /\ (forall t x, nth_error (q_thr q) t = Some x -> waiting x))
       \/ (exists h, h <> t /\ holder q bl h /\ forall t x, t <> h -> nth_error (q_thr q) t = Some x -> waiting x)))
    \/ (holder q bl t /\ forall u x, u <> t -> nth_error (q_thr q) u = Some x -> waiting x)).
  { destruct P6 as [(Q1 & Q2 & Q3)|(h & Hh & Q)].
    - left. split; [eapply Q3; eauto|]. left. auto.
    - destruct (Nat.eq_dec h t) as [->|N]; [right; auto|]. left. split; [eapply Q; eauto|]. right. exists h. auto. }
  destruct Cases as [[[G Np] W]|[(p1 & o1 & todo1 & E1 & E2 & E3 & E4) W]].
  - inversion G as [r m Hr|X c k x m Hc Gk|p1 m Hb Hs]; subst.
    + exfalso. eapply Np; reflexivity.
    + rewrite (Hc _ P3) in E. injection E as <-. eapply quiet_settle; eauto.
    + destruct W as [(Q1 & Q2 & Q3)|(h & N & (p' & o1 & todo1 & E1 & E2 & E3 & E4) & Q3)].
      * rewrite Q1, free_free in E. injection E as <-. rewrite set_L_only. eapply holder_settle; eauto.
        -- apply only_taken.
        -- rewrite Q2. now apply Hs.
      * rewrite E3 in E. discriminate.
  - rewrite E1 in Ht. injection Ht as <- <- <-.
    destruct p1 as [a|X m k|l p1|l p1]; [destruct E2| | |].
    + cbn [solo] in E4. destruct E2 as [C1 C2]. specialize (C1 _ P3). destruct (m (q_st q)) as [y b1]. injection E as <-.
      eapply holder_settle; eauto.
    + cbn [solo] in E4. destruct E2 as [C1 C2]. destruct (taken_by_someone (q_locks q) l); [discriminate|]. injection E as <-.
      eapply holder_settle; eauto. now rewrite taken_other.
    + cbn [solo] in E4. injection E as <-. destruct E2 as [[C1 C2]|[-> [r ->]]].
      { eapply holder_settle; eauto. now rewrite taken_other. }
      (* the lock is released: the call has returned *)
      cbn [solo] in E4. injection E4 as Eg El Eb. rewrite El.
      exists (snd (sem o1 bl)). cbn [settle]. constructor; cbn [q_log q_st q_thr q_locks].
      * eapply replays_app; [exact P1|]. rewrite Eg. destruct (sem o1 bl); reflexivity.
      * now rewrite <- Eb.
      * exact P3.
      * now rewrite nth_update_len.
      * apply (settle_order scripts q t _ o1 (PRet r) todo1 all_free (q_st q) P5 E1 eq_refl).
      * left. split; [auto|split; [auto|]]. intros u y Hu. destruct (Nat.eq_dec u t) as [->|N].
        -- rewrite (nth_update_at _ _ _ _ E1) in Hu. injection Hu as <-. exact Logic.I.
        -- rewrite nth_update_off in Hu by auto. eauto.
Qed.

Lemma prun_inv scripts b0 : Forall (Forall ok) scripts -> forall sched q bl q', pinv scripts b0 q bl -> prun start sched q = Some q' ->
  exists bl', pinv scripts b0 q' bl'.
Proof.
  intros Hok. induction sched as [|t r IH]; intros q bl q' H E; cbn [prun] in E.
  - injection E as <-. eauto.
  - destruct (pstep start t q) as [q1|] eqn:E1; [|discriminate]. destruct (pstep_inv _ _ _ _ _ _ Hok H E1) as [bl1 H1]. eauto.
Qed.
Lemma new_inv scripts b0 : I b0 -> pinv scripts b0 (new_pool b0 scripts) b0.
Proof.
  intros J. constructor; cbn [new_pool q_log q_st q_thr q_locks]; auto.
  - constructor.
  - apply map_length.
  - intros t x Hx. rewrite nth_error_map in Hx. destruct (nth_error scripts t) as [s|]; [|discriminate]. injection Hx as <-.
    exists s. auto.
  - left. split; [auto|split; [auto|]]. intros t x Hx. rewrite nth_error_map in Hx. destruct (nth_error scripts t); [|discriminate].
    injection Hx as <-. exact Logic.I.
Qed.

Theorem serial scripts b0 sched q : I b0 -> Forall (Forall ok) scripts -> prun start sched (new_pool b0 scripts) = Some q ->
  (exists b, replays sem (q_log q) b0 b /\ (Forall idle (q_thr q) -> b = q_st q))
  /\ (forall t x, nth_error (q_thr q) t = Some x ->
       exists s, nth_error scripts t = Some s /\ s = calls_of t (q_log q) ++ now_list x ++ t_todo x).
Proof.
  intros J Hok E. destruct (prun_inv scripts b0 Hok _ _ _ _ (new_inv scripts b0 J) E) as [bl [P1 P2 P3 P4 P5 P6]]. split; [|exact P5].
  exists bl. split; [exact P1|]. intros Id. destruct P6 as [(Q1 & Q2 & Q3)|(h & (p & o & todo & E1 & _) & _)]; [auto|].
  apply nth_error_In in E1. rewrite Forall_forall in Id. specialize (Id _ E1). discriminate.
Qed.

Lemma fin_dec (x : thread O R) : {finished x} + {~ finished x}.
Proof.
  destruct x as [[[o p]|] [|o' l]]; try (right; intros [? ?]; cbn in *; congruence). left; split; reflexivity.
Defined.
(** As long as a thread has not finished, some thread can go on. *)
Theorem goes_on scripts b0 sched q : I b0 -> Forall (Forall ok) scripts -> prun start sched (new_pool b0 scripts) = Some q ->
  Forall finished (q_thr q) \/ exists t q', pstep start t q = Some q'.
Proof.
  intros J Hok E. destruct (prun_inv scripts b0 Hok _ _ _ _ (new_inv scripts b0 J) E) as [bl [P1 P2 P3 P4 P5 P6]].
  destruct P6 as [(Q1 & Q2 & Q3)|(h & (p & o & todo & E1 & E2 & E3 & E4) & _)].
  - destruct (Forall_Exists_dec finished fin_dec (q_thr q)) as [F|X].
    + now left.
    + right. apply Exists_exists in X. destruct X as (x & Hin & Nf). destruct (In_nth_error _ _ Hin) as (t & Ht). exists t.
      unfold pstep. rewrite Ht. destruct x as [[[o p]|] todo].
      * specialize (Q3 _ _ Ht). destruct Q3 as [G Np]. inversion G; subst.
        -- exfalso. eapply Np; reflexivity.
        -- destruct (c (q_st q)). eauto.
        -- rewrite Q1, free_free. eauto.
      * destruct todo; [exfalso; apply Nf; split; auto|eauto].
  - right. exists h. unfold pstep. rewrite E1. destruct p as [a|X m k|l p|l p]; [destruct E2| | |eauto].
    + destruct (m (q_st q)). eauto.
    + cbn [solo] in E4. destruct (taken_by_someone (q_locks q) l); [discriminate|]. eauto.
Qed.
End Serial.

(** Threads neither appear nor disappear; only they make calls. *)
Lemma pstep_threads {O R} (start : O -> prog R) t q q' : pstep start t q = Some q' ->
  length (q_thr q') = length (q_thr q)
  /\ forall u o r, In (u, o, r) (q_log q') -> In (u, o, r) (q_log q) \/ (u < length (q_thr q))%nat.
Proof.
  intros E. unfold pstep in E. destruct (nth_error (q_thr q) t) as [x|] eqn:Ht; [|discriminate].
  assert (Hlt : (t < length (q_thr q))%nat) by (apply nth_error_Some; congruence).
  assert (G : forall o p todo ls b, length (q_thr (settle t o p todo ls b q)) = length (q_thr q)
    /\ forall u o' r, In (u, o', r) (q_log (settle t o p todo ls b q)) -> In (u, o', r) (q_log q) \/ (u < length (q_thr q))%nat).
  { intros. split; [apply settle_len|]. intros u o' r Hin. destruct p; cbn [settle q_log] in Hin; auto.
    apply in_app_or in Hin as [Hin|[[= <- <- <-]|[]]]; auto. }
  destruct x as [[[o p]|] todo].
  - destruct p as [a|X m k|l p|l p]; [discriminate| | |].
    + destruct (m (q_st q)). injection E as <-. apply G.
    + destruct (taken_by_someone (q_locks q) l); [discriminate|]. injection E as <-. apply G.
    + injection E as <-. apply G.
  - destruct todo as [|o todo]; [discriminate|]. injection E as <-. apply G.
Qed.
Lemma prun_threads {O R} (start : O -> prog R) sched : forall q q', prun start sched q = Some q' -> length (q_thr q') = length (q_thr q).
Proof.
  induction sched as [|t r IH]; intros q q' E; cbn [prun] in E; [injection E as <-; reflexivity|].
  destruct (pstep start t q) as [q1|] eqn:E1; [|discriminate]. rewrite (IH _ _ E). apply (proj1 (pstep_threads _ _ _ _ E1)).
Qed.
Lemma log_threads {O R} (start : O -> prog R) sched : forall q q', prun start sched q = Some q' ->
  (forall u o r, In (u, o, r) (q_log q) -> (u < length (q_thr q))%nat) ->
  forall u o r, In (u, o, r) (q_log q') -> (u < length (q_thr q))%nat.
Proof.
  induction sched as [|t r IH]; intros q q' E H u o x Hin; cbn [prun] in E; [injection E as <-; eauto|].
  destruct (pstep start t q) as [q1|] eqn:E1; [|discriminate]. destruct (pstep_threads _ _ _ _ E1) as [L1 L2].
  rewrite <- L1. eapply (IH _ _ E); eauto. intros u' o' r' Hi. rewrite L1. destruct (L2 _ _ _ Hi); eauto.
Qed.
