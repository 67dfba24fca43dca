(** Proofs for C94. *)
From Coq Require Import ZArith List Bool Lia.
From Verif Require Import M_Base M_Registry M_Kernel M_World M_Raw M_Buffered S_Bytes S_Pipes M_Pipes S_PipeEnds P_Bytes P_Raw P_BufLine.
Import ListNotations.
Open Scope Z_scope.

(** What the calls leave as it is. *)
Definition pkept (u : uid) (w w' : world) : Prop :=
  (forall d, w_fds w' d = w_fds w d) /\ (exists i, w_inodes w' u = Some i /\ n_kind i = KPipe).

Lemma pend_kept f w u w' : pend f w u -> pkept u w w' -> pend f w' u.
Proof. intros [A B C] [D E]. constructor; auto. destruct B as (o & B). exists o. now rewrite D. Qed.
Lemma pkept_refl f w u : pend f w u -> pkept u w w.
Proof. intros [_ _ C]. split; auto. Qed.
Lemma pkept_trans u w w1 w2 : pkept u w w1 -> pkept u w1 w2 -> pkept u w w2.
Proof. intros [A B] [C D]. split; [|exact D]. intros d. now rewrite C, A. Qed.

Lemma uid_refl u : uid_eqb u u = true. Proof. apply P_Raw.uid_eqb_refl. Qed.

Lemma io_count_pos e n : (0 < n)%nat -> (0 < io_count e n)%nat.
Proof. unfold io_count. destruct e; lia. Qed.
Lemma io_count_le e n : (io_count e n <= n)%nat.
Proof. unfold io_count. destruct e; lia. Qed.

(** read(2) *)
Lemma pipe_sys_read f w u n r w' : pend f w u -> f_readable f = true -> 0 <= n -> sys_read (fd_of f) n w = (r, w') ->
  pkept u w w' /\ match r with
                  | Ok d => inside w u = d ++ inside w' u /\ len d <= n /\ (d = [] -> 0 < n -> inside w u = [])
                  | Err e => (exists x, e = EOS x) /\ inside w' u = inside w u
                  end.
Proof.
  intros [_ (o & Ho & Hu & Hr & _) (i & Hi & Hk)] Hrd Hn H. unfold sys_read, bind, get_fd in H. rewrite Ho, Hu, Hi in H. cbv beta iota zeta in H.
  rewrite (Hr Hrd) in H. cbn [negb] in H. rewrite Hk in H. destruct (Z.ltb_spec n 0); [lia|]. rewrite next_io_eq in H.
  assert (G : forall e w1, w1 = set_io w (tl (w_io w)) -> (r, w') = (Ok (firstn (io_count e (Z.to_nat n)) (n_data i)),
      upd_ino w1 (o_uid o) (mkIno KPipe (skipn (io_count e (Z.to_nat n)) (n_data i)) (n_dirty i))) ->
    pkept u w w' /\ match r with
                  | Ok d => inside w u = d ++ inside w' u /\ len d <= n /\ (d = [] -> 0 < n -> inside w u = [])
                  | Err e => (exists x, e = EOS x) /\ inside w' u = inside w u
                  end).
  { intros e w1 -> [= -> ->]. rewrite Hu. split.
    - split; [reflexivity|]. eexists. unfold upd_ino. cbn [w_inodes set_inodes]. rewrite upd_same by apply uid_refl. split; reflexivity.
    - unfold inside at 2. unfold upd_ino. cbn [w_inodes set_inodes]. rewrite upd_same by apply uid_refl. cbn [n_data]. unfold inside. rewrite Hi.
      split; [now rewrite firstn_skipn|]. split.
      + unfold len. rewrite firstn_length. pose proof (io_count_le e (Z.to_nat n)). lia.
      + intros X Y. pose proof (io_count_pos e (Z.to_nat n) ltac:(lia)). destruct (n_data i); [reflexivity|].
        destruct (io_count e (Z.to_nat n)); [lia|discriminate]. }
  destruct (hd IoFull (w_io w)) as [|k|x]; [apply (G IoFull _ eq_refl); symmetry; exact H|apply (G (IoShort k) _ eq_refl); symmetry; exact H|].
  injection H as <- <-. split; [split; [reflexivity|eauto]|]. split; [eauto|]. reflexivity.
Qed.

(** The raw reads. *)
Definition got (x : option (list byte)) : list byte := match x with Some d => d | None => [] end.
Definition is_os (e : exn) : Prop := exists x, e = EOS x.

Lemma pipe_inner_read f w u n r w' : pend f w u -> f_readable f = true -> 0 <= n -> inner_read f n w = (r, w') ->
  pkept u w w' /\ match r with
                  | Ok x => inside w u = got x ++ inside w' u /\ len (got x) <= n
                  | Err e => is_os e /\ inside w' u = inside w u
                  end.
Proof.
  intros P Hr Hn H. unfold inner_read in H. destruct (sys_read (fd_of f) n w) as [r1 w1] eqn:E.
  destruct (pipe_sys_read _ _ _ _ _ _ P Hr Hn E) as (K & C). destruct r1 as [d|e].
  - injection H as <- <-. split; [exact K|]. cbn [got]. tauto.
  - destruct C as ((x & ->) & C). destruct (x =? EAGAIN).
    { injection H as <- <-. split; [exact K|]. cbn [got]. split; [now rewrite C|exact Hn]. }
    destruct (x =? EPIPE); injection H as <- <-; (split; [exact K|]).
    + cbn [got]. split; [now rewrite C|exact Hn].
    + split; [exists x; reflexivity|exact C].
Qed.
Lemma checks_read f w u {A} (m : M A) : pend f w u -> f_readable f = true -> (check_closed f ;; check_readable f ;; m) w = m w.
Proof. intros P Hr. unfold bind, check_readable, check_closed, bind, check_closed. rewrite (pe_open _ _ _ P), Hr. reflexivity. Qed.
Lemma pipe_read_n f w u n r w' : pend f w u -> f_readable f = true -> 0 <= n -> raw_read f (Some n) w = (r, w') ->
  pkept u w w' /\ match r with
                  | Ok x => inside w u = got x ++ inside w' u /\ len (got x) <= n
                  | Err e => is_os e /\ inside w' u = inside w u
                  end.
Proof.
  intros P Hr Hn H. unfold raw_read in H. rewrite (checks_read f w u _ P Hr) in H. destruct (Z.ltb_spec n 0); [lia|].
  now apply (pipe_inner_read f w u n).
Qed.
Lemma pipe_readall_loop f u : f_readable f = true -> forall fuel acc w r w', pend f w u -> (length (inside w u) < fuel)%nat ->
  readall_loop fuel f acc w = (r, w') ->
  pkept u w w' /\ match r with
                  | Ok x => acc ++ inside w u = got x ++ inside w' u
                  | Err e => is_os e
                  end.
Proof.
  intros Hr. induction fuel as [|fuel IH]; intros acc w r w' P Hf H; [lia|]. cbn [readall_loop] in H. unfold bind at 1 in H.
  unfold raw_read_n in H. rewrite (checks_read f w u _ P Hr) in H.
  destruct (inner_read f DEFAULT_BUFFER_SIZE w) as [r1 w1] eqn:E.
  assert (D : 0 <= DEFAULT_BUFFER_SIZE) by (unfold DEFAULT_BUFFER_SIZE; lia).
  destruct (pipe_inner_read _ _ _ _ _ _ P Hr D E) as (K & C). destruct r1 as [x|e].
  2:{ injection H as <- <-. split; [exact K|apply C]. }
  destruct C as (C & _). destruct x as [[|a d]|].
  - injection H as <- <-. split; [exact K|]. cbn [got List.app] in C. rewrite C. now destruct acc.
  - destruct (IH (acc ++ a :: d) w1 r w') as (K1 & C1); auto.
    + exact (pend_kept _ _ _ _ P K).
    + rewrite C in Hf. cbn [got] in Hf. rewrite app_length in Hf. cbn in Hf. lia.
    + split; [exact (pkept_trans _ _ _ _ K K1)|]. destruct r; [|exact C1]. rewrite <- C1, C, <- app_assoc. reflexivity.
  - injection H as <- <-. split; [exact K|]. cbn [got List.app] in C. rewrite C. now destruct acc.
Qed.
Lemma readall_fuel_eq f w u : pend f w u -> readall_fuel f w = (Ok (length (inside w u)), w).
Proof. intros [_ (o & Ho & Hu & _) (i & Hi & _)]. unfold readall_fuel, inside. now rewrite Ho, Hu, Hi. Qed.
Lemma pipe_readall f w u r w' : pend f w u -> f_readable f = true -> raw_readall f w = (r, w') ->
  pkept u w w' /\ match r with Ok x => inside w u = got x ++ inside w' u | Err e => is_os e end.
Proof.
  intros P Hr H. unfold raw_readall, bind in H. rewrite (readall_fuel_eq _ _ _ P) in H.
  exact (pipe_readall_loop f u Hr _ [] w r w' P (Nat.lt_succ_diag_r _) H).
Qed.

(** * The reader *)

(** A reader on pipe [u]; what it has not given yet. *)
Record preader (b : bstate) (u : uid) : Prop := mkPreader {
  pr_end : pend (b_raw b) (b_w b) u; pr_rd : f_readable (b_raw b) = true; pr_size : 0 < b_size b; pr_wbuf : b_wbuf b = [] }.
Definition front (b : bstate) (u : uid) : list byte := unread b ++ inside (b_w b) u.
Definition bkept (u : uid) (b b' : bstate) : Prop :=
  b_raw b' = b_raw b /\ b_size b' = b_size b /\ b_wbuf b' = b_wbuf b /\ pkept u (b_w b) (b_w b').
Lemma bkept_reader u b b' : preader b u -> bkept u b b' -> preader b' u.
Proof. intros [A B C D] (E & F & G & H). constructor; rewrite ?E, ?F, ?G; auto. exact (pend_kept _ _ _ _ A H). Qed.
Lemma bkept_refl u b : preader b u -> bkept u b b.
Proof. intros [A _ _ _]. repeat split; auto. apply A. Qed.
Lemma bkept_trans u b b1 b2 : bkept u b b1 -> bkept u b1 b2 -> bkept u b b2.
Proof. intros (A & B & C & D) (E & F & G & H). repeat split; try congruence; [|apply H]. intros d. rewrite (proj1 H), (proj1 D). reflexivity. Qed.

(** One read of the raw stream. *)
Lemma on_raw_read b u n r b' : preader b u -> 0 <= n -> on_raw (fun f => raw_read f (Some n)) b = (r, b') ->
  bkept u b b' /\ b_rbuf b' = b_rbuf b /\ b_rpos b' = b_rpos b
  /\ match r with
     | Ok x => inside (b_w b) u = got x ++ inside (b_w b') u /\ len (got x) <= n
     | Err e => is_os e /\ inside (b_w b') u = inside (b_w b) u
     end.
Proof.
  intros R Hn H. unfold on_raw in H. destruct (raw_read (b_raw b) (Some n) (b_w b)) as [r1 w1] eqn:E. injection H as <- <-.
  destruct (pipe_read_n _ _ _ _ _ _ (pr_end _ _ R) (pr_rd _ _ R) Hn E) as (K & C). repeat split; auto; apply K.
Qed.
Lemma read_fuel_eq b u : preader b u -> read_fuel b = (Ok (S (length (inside (b_w b) u))), b).
Proof. intros R. unfold read_fuel, bind, on_raw. rewrite (readall_fuel_eq _ _ _ (pr_end _ _ R)). now destruct b. Qed.

Lemma pipe_fill u wanted n : 0 <= wanted -> forall fuel out b r b', preader b u -> (length (inside (b_w b) u) < fuel)%nat ->
  fill_loop fuel wanted n out b = (r, b') ->
  bkept u b b' /\ b_rbuf b' = b_rbuf b /\ b_rpos b' = b_rpos b
  /\ match r with
     | Ok (out', _) => out ++ inside (b_w b) u = out' ++ inside (b_w b') u
     | Err e => is_os e
     end.
Proof.
  intros Hw. induction fuel as [|fuel IH]; intros out b r b' R Hf H; [lia|]. cbn [fill_loop] in H.
  destruct (Z.of_nat (length out) <? n).
  2:{ injection H as <- <-. split; [now apply bkept_refl|auto]. }
  unfold bind at 1 in H. destruct (on_raw (fun f => raw_read f (Some wanted)) b) as [r1 b1] eqn:E.
  destruct (on_raw_read _ _ _ _ _ R Hw E) as (K & E1 & E2 & C). destruct r1 as [x|e].
  2:{ injection H as <- <-. destruct C as [C _]. auto. }
  destruct C as [C _]. destruct x as [[|a d]|].
  - injection H as <- <-. cbn [got List.app] in C. rewrite C. auto.
  - destruct (IH (out ++ a :: d) b1 r b') as (K1 & E3 & E4 & C1); auto.
    + exact (bkept_reader _ _ _ R K).
    + rewrite C in Hf. cbn [got] in Hf. rewrite app_length in Hf. cbn in Hf. lia.
    + split; [exact (bkept_trans _ _ _ _ K K1)|]. split; [congruence|]. split; [congruence|].
      destruct r as [[out' nd]|e]; [|exact C1]. rewrite <- C1, C, <- app_assoc. reflexivity.
  - injection H as <- <-. cbn [got List.app] in C. rewrite C. auto.
Qed.

(** read(): the front of the queue. *)
Lemma skipn_plus {A} (a c : nat) (l : list A) : skipn (a + c) l = skipn c (skipn a l).
Proof. revert l; induction a as [|a IH]; intros [|x l]; cbn; auto. now rewrite skipn_nil. Qed.
Lemma fill_nodata wanted n l : forall fuel out b out' b', fill_loop fuel wanted n out b = (Ok (out', Some l), b') -> l = [].
Proof.
  induction fuel as [|fuel IH]; [discriminate|]. intros out b out' b'. cbn [fill_loop]. destruct (_ <? n); [|now intros [= _ <-]].
  unfold bind at 1. destruct (on_raw _ b) as [[[[|x c]|]|e] b2]; try discriminate; [now intros [= _ <-]|]. apply IH.
Qed.
Lemma pipe_read_unlocked b u n r b' : preader b u -> (forall k, n = Some k -> -1 <= k) -> read_unlocked n b = (r, b') ->
  bkept u b b' /\ match r with
                  | Ok x => front b u = got x ++ front b' u /\ forall k, n = Some k -> 0 <= k -> len (got x) <= k
                  | Err e => is_os e
                  end.
Proof.
  intros R Hn H. unfold read_unlocked in H.
  destruct (match n with None => true | Some k => k =? -1 end) eqn:Eall.
  - unfold bind, reset_read_buf, on_raw in H. cbn [b_raw b_w set_rbuf] in H.
    destruct (raw_readall (b_raw b) (b_w b)) as [r1 w1] eqn:E.
    destruct (pipe_readall _ _ _ _ _ (pr_end _ _ R) (pr_rd _ _ R) E) as (K & C).
    assert (Kb : bkept u b (set_world (set_rbuf b [] 0) w1)) by (repeat split; auto; apply K).
    assert (Nk : forall k, n = Some k -> ~ 0 <= k). { intros k ->. apply Z.eqb_eq in Eall. lia. }
    unfold front. destruct r1 as [x|e]; [|injection H as <- <-; auto].
    destruct x as [c|].
    + injection H as <- <-. split; [exact Kb|]. cbn. split; [rewrite C; cbn; now rewrite app_assoc|]. intros k A B. now destruct (Nk k A).
    + injection H as <- <-. split; [exact Kb|]. cbn. cbn in C. rewrite C. split; [now destruct (unread b)|]. intros k A B. now destruct (Nk k A).
  - destruct n as [n|]; [|discriminate]. apply Z.eqb_neq in Eall. specialize (Hn n eq_refl). cbv zeta in H.
    destruct (Z.leb_spec n (Z.of_nat (length (unread b)))).
    + injection H as <- <-. split. { repeat split; auto. apply (pr_end _ _ R). }
      unfold front. cbn [got set_rbuf b_w]. split.
      * rewrite app_assoc. f_equal. unfold unread at 3. cbn [b_rpos b_rbuf set_rbuf]. rewrite skipn_plus. fold (unread b). now rewrite firstn_skipn.
      * intros k [= <-] Hk. unfold len. rewrite firstn_length. lia.
    + unfold bind at 1 in H. rewrite (read_fuel_eq _ _ R) in H. unfold bind at 1 in H.
      destruct (fill_loop _ _ _ _ b) as [r1 b1] eqn:E.
      destruct (pipe_fill u (Z.max (b_size b) n) n ltac:(pose proof (pr_size _ _ R); lia) _ _ _ _ _ R (Nat.lt_succ_diag_r _) E) as (K & E1 & E2 & C).
      destruct r1 as [[out nd]|e]; [|injection H as <- <-; auto].
      unfold bind, ret in H. injection H as <- <-. split. { destruct K as (A1 & A2 & A3 & A4). repeat split; auto; apply A4. }
      unfold front. rewrite C. unfold unread. cbn [set_rbuf b_w b_rbuf b_rpos skipn]. set (m := Z.to_nat (Z.min n (Z.of_nat (length out)))).
      destruct out as [|a out].
      * cbn [List.app got]. rewrite skipn_nil. cbn [List.app]. split.
        -- destruct nd as [l|]; [|reflexivity]. now rewrite (fill_nodata _ _ _ _ _ _ _ _ E).
        -- intros k _ Hk. destruct nd as [l|]; [|exact Hk]. now rewrite (fill_nodata _ _ _ _ _ _ _ _ E).
      * cbn [got]. rewrite app_assoc, firstn_skipn. split; [reflexivity|]. intros k [= <-] Hk. unfold len. rewrite firstn_length. lia.
Qed.

(** peek(): one system call at most. *)
Lemma pipe_peek b u n r b' : preader b u -> peek_unlocked n b = (r, b') ->
  bkept u b b' /\ front b' u = front b u /\ match r with Ok d => d = unread b' | Err e => is_os e end
  /\ (unread b' = [] -> inside (b_w b') u = inside (b_w b) u) /\ (length (inside (b_w b') u) + length (unread b') = length (inside (b_w b) u) + length (unread b))%nat.
Proof.
  intros R H. unfold peek_unlocked in H. unfold bind at 1 in H.
  match type of H with (match ?x with _ => _ end) = _ => destruct x as [r1 b1] eqn:E1 end.
  assert (G : bkept u b b1 /\ front b1 u = front b u /\ match r1 with Ok _ => True | Err e => is_os e end /\ (unread b1 = [] -> inside (b_w b1) u = inside (b_w b) u)).
  { destruct ((Z.of_nat (length (unread b)) <? Z.min n (b_size b)) || (Z.of_nat (length (unread b)) <=? 0)) eqn:Ec.
    2:{ injection E1 as <- <-. split; [now apply bkept_refl|auto]. }
    unfold bind at 1 in E1. destruct (on_raw _ b) as [r2 b2] eqn:E2.
    assert (Hn : 0 <= b_size b - Z.of_nat (length (unread b))).
    { pose proof (pr_size _ _ R). apply orb_true_iff in Ec. destruct Ec as [X|X]; [apply Z.ltb_lt in X|apply Z.leb_le in X]; lia. }
    destruct (on_raw_read _ _ _ _ _ R Hn E2) as (K & B1 & B2 & C).
    assert (U2 : unread b2 = unread b) by (unfold unread; now rewrite B1, B2).
    destruct r2 as [x|e].
    - destruct C as [C _]. destruct x as [[|a d]|]; cbn [got List.app] in C.
      + injection E1 as <- <-. unfold front. rewrite U2, C. auto.
      + injection E1 as <- <-. split. { destruct K as (A1 & A2 & A3 & A4). repeat split; auto; apply A4. }
        split; [|split; [exact I|]].
        * unfold front. cbn [set_rbuf b_w]. unfold unread at 1. cbn [b_rpos b_rbuf set_rbuf skipn]. rewrite U2, C, <- app_assoc. reflexivity.
        * unfold unread at 1. cbn [b_rpos b_rbuf set_rbuf skipn]. rewrite U2. destruct (unread b); discriminate.
      + injection E1 as <- <-. unfold front. rewrite U2, C. auto.
    - injection E1 as <- <-. destruct C as [C1 C2]. unfold front. rewrite U2, C2. auto. }
  destruct G as (G1 & G2 & G3 & G4).
  assert (L : (length (inside (b_w b1) u) + length (unread b1) = length (inside (b_w b) u) + length (unread b))%nat).
  { assert (length (front b1 u) = length (front b u)) as X by (now rewrite G2). unfold front in X. rewrite !app_length in X. lia. }
  destruct r1 as [x|e]; injection H as <- <-; auto.
Qed.

Lemma open_check b u : preader b u -> b_check_closed b = (Ok tt, b).
Proof. intros R. unfold b_check_closed. now rewrite (pe_open _ _ _ (pr_end _ _ R)). Qed.

(** What is there is given without a system call. *)
Lemma read_there b n : 0 <= n <= Z.of_nat (length (unread b)) ->
  read_unlocked (Some n) b = (Ok (Some (firstn (Z.to_nat n) (unread b))), set_rbuf b (b_rbuf b) (b_rpos b + Z.to_nat n)).
Proof.
  intros Hn. unfold read_unlocked. cbv zeta. destruct (Z.eqb_spec n (-1)); [lia|]. destruct (Z.leb_spec n (Z.of_nat (length (unread b)))); [|lia].
  reflexivity.
Qed.
Lemma unread_on b k : unread (set_rbuf b (b_rbuf b) (b_rpos b + k)) = skipn k (unread b).
Proof. unfold unread. cbn [b_rpos b_rbuf set_rbuf]. apply skipn_plus. Qed.

Lemma pipe_read1 b u n r b' : preader b u -> reader_read1 n b = (r, b') ->
  bkept u b b' /\ match r with
                  | Ok x => exists d, x = Some d /\ front b u = d ++ front b' u /\ (0 <= n -> len d <= n)
                  | Err e => is_os e /\ front b' u = front b u
                  end.
Proof.
  intros R H. unfold reader_read1, bind at 1 in H. rewrite (open_check _ _ R) in H. cbv zeta in H.
  set (m := if n <? 0 then b_size b else n) in *.
  assert (Hm : 0 <= m /\ (0 <= n -> m = n)) by (unfold m; pose proof (pr_size _ _ R); destruct (Z.ltb_spec n 0); lia).
  destruct (Z.eqb_spec m 0).
  - injection H as <- <-. split; [now apply bkept_refl|]. exists []. split; [reflexivity|]. split; [reflexivity|]. intros X. exact X.
  - unfold bind in H. destruct (peek_unlocked 1 b) as [r1 b1] eqn:E. destruct (pipe_peek _ _ _ _ _ R E) as (K & F & C & _).
    destruct r1 as [x|e].
    2:{ injection H as <- <-. auto. }
    rewrite read_there in H by lia. injection H as <- <-.
    split. { destruct K as (A1 & A2 & A3 & A4). repeat split; auto; apply A4. }
    eexists. split; [reflexivity|]. rewrite <- F. unfold front. rewrite unread_on. cbn [b_w set_rbuf]. rewrite app_assoc, firstn_skipn.
    split; [reflexivity|]. intros X. unfold len. rewrite firstn_length. lia.
Qed.

Lemma last_app_no l d : d <> [] -> ~ In 10 l -> ~ In 10 (removelast d) -> ~ In 10 (removelast (l ++ d)).
Proof. intros A B C. rewrite removelast_app by exact A. rewrite in_app_iff. tauto. Qed.
Lemma no_newline (d : list Z) : ~ In 10 (removelast d) -> (last d 0 =? 10) = false -> ~ In 10 d.
Proof.
  intros A B. destruct (list_eq_dec Z.eq_dec d []) as [->|N]; [auto|]. rewrite (app_removelast_last 0 N), in_app_iff. apply Z.eqb_neq in B.
  intros [X|[X|[]]]; [auto|congruence].
Qed.
Lemma removelast_firstn_incl (d : list Z) : incl (removelast d) d.
Proof.
  destruct (list_eq_dec Z.eq_dec d []) as [->|N]; [apply incl_refl|]. rewrite (app_removelast_last 0 N) at 2. apply incl_appl, incl_refl.
Qed.
Lemma removelast_short (d : list Z) : (length d <= 1)%nat -> removelast d = [].
Proof. destruct d as [|x [|y d]]; cbn; auto. lia. Qed.
Lemma removelast_firstn' n (l : list Z) : (S n <= length l)%nat -> removelast (firstn (S n) l) = firstn n l.
Proof. intros. apply removelast_firstn. lia. Qed.
Lemma firstn_in {A} (x : A) n m l : (n <= m)%nat -> In x (firstn n l) -> In x (firstn m l).
Proof. intros H. replace n with (Nat.min n m) by lia. rewrite <- firstn_firstn. intros X. rewrite <- (firstn_skipn n (firstn m l)). apply in_app_iff. now left. Qed.

Lemma chunk_part ahead n : ahead <> [] -> (1 <= n <= match newline_len ahead with O => length ahead | m => m end)%nat ->
  ~ In 10 (removelast (firstn n ahead)) /\ firstn n ahead <> [] /\ (n <= length ahead)%nat.
Proof.
  intros N Hn. assert (L : (n <= length ahead)%nat).
  { destruct (newline_len ahead) eqn:E; [lia|]. apply newline_len_some in E. lia. }
  destruct n as [|n]; [lia|]. split; [|split; [destruct ahead; [now destruct N|discriminate]|exact L]].
  rewrite removelast_firstn' by exact L. destruct (newline_len ahead) eqn:E.
  - apply newline_len_none in E. intros X. apply E. rewrite <- (firstn_skipn n ahead). apply in_app_iff. now left.
  - apply newline_len_some in E. destruct E as (_ & _ & E). intros X. apply E. apply (firstn_in _ n); [lia|exact X].
Qed.

Lemma pipe_readline_loop u size : forall fuel res b r b', preader b u -> (length (front b u) < fuel)%nat -> ~ In 10 res ->
  (0 <= size -> len res <= 2 * size) -> readline_loop fuel BReader size res b = (r, b') ->
  bkept u b b' /\ match r with
                  | Ok out => exists d, out = res ++ d /\ front b u = d ++ front b' u /\ line_part out /\ (0 <= size -> len out <= 2 * size)
                  | Err e => is_os e
                  end.
Proof.
  induction fuel as [|fuel IH]; intros res b r b' R Hf Hres Hlen H; [lia|]. cbn [readline_loop] in H.
  assert (Done : line_part res). { intros X. apply Hres. now apply removelast_firstn_incl. }
  destruct ((size <? 0) || (Z.of_nat (length res) <? size)) eqn:Ec.
  2:{ injection H as <- <-. split; [now apply bkept_refl|]. exists []. rewrite app_nil_r. auto. }
  cbn [b_peek] in H. unfold reader_peek, bind at 1, bind at 1 in H. rewrite (open_check _ _ R) in H.
  destruct (peek_unlocked 1 b) as [r1 b1] eqn:E. destruct (pipe_peek _ _ _ _ _ R E) as (K & F & C & _).
  destruct r1 as [ahead|e]; [|injection H as <- <-; auto]. subst ahead.
  pose proof (bkept_reader _ _ _ R K) as R1.
  set (n := match unread b1 with [] => 1 | _ => _ end) in H. cbn [b_read] in H. unfold reader_read in H.
  assert (Hn : match unread b1 with [] => n = 1 | _ => 0 <= size -> n <= size end /\ 1 <= n
             /\ (unread b1 <> [] -> (1 <= Z.to_nat n <= match newline_len (unread b1) with O => length (unread b1) | m => m end)%nat)).
  { subst n. destruct (unread b1) as [|x l] eqn:El; [split; [reflexivity|split; [lia|now intros []]]|].
    assert (S1 : size < 0 \/ 1 <= size). { apply orb_true_iff in Ec. destruct Ec as [X|X]; apply Z.ltb_lt in X; [now left|right; lia]. }
    set (m := match newline_len (x :: l) with O => Z.of_nat (length (x :: l)) | S q => Z.of_nat (S q) end).
    assert (M : m = Z.of_nat (match newline_len (x :: l) with O => length (x :: l) | S q => S q end)) by (subst m; now destruct (newline_len (x :: l))).
    assert (1 <= m) by (subst m; destruct (newline_len (x :: l)); cbn [length]; lia).
    destruct (Z.leb_spec 0 size).
    - split; [lia|]. split; [lia|]. intros _. rewrite <- (Nat2Z.id (match newline_len (x :: l) with O => _ | S q => _ end)), <- M. lia.
    - split; [lia|]. split; [lia|]. intros _. rewrite <- (Nat2Z.id (match newline_len (x :: l) with O => _ | S q => _ end)), <- M. lia. }
  clearbody n. destruct Hn as (Hn1 & Hn2 & Hn3). destruct (Z.ltb_spec n (-1)); [lia|].
  unfold bind in H. destruct (read_unlocked (Some n) b1) as [r2 b2] eqn:E2.
  assert (Hk : forall k, Some n = Some k -> -1 <= k) by (intros k [= <-]; lia).
  destruct (pipe_read_unlocked _ _ _ _ _ R1 Hk E2) as (K2 & C2).
  pose proof (bkept_trans _ _ _ _ K K2) as K02. destruct r2 as [x|e]; [|injection H as <- <-; auto].
  destruct C2 as (C2 & C3). specialize (C3 n eq_refl ltac:(lia)). rewrite F in C2.
  assert (P : got x <> [] -> ~ In 10 (removelast (got x)) /\ (0 <= size -> len (got x) <= size)).
  { intros X. destruct (unread b1) as [|y l] eqn:El.
    - subst n. rewrite removelast_short by (unfold len in C3; lia). split; [auto|]. intros S0.
      apply orb_true_iff in Ec. destruct Ec as [Y|Y]; apply Z.ltb_lt in Y; lia.
    - destruct (chunk_part (unread b1) (Z.to_nat n)) as (P1 & P2 & P3); [rewrite El; discriminate|rewrite El; now apply Hn3|].
      rewrite read_there in E2 by lia. injection E2 as <- <-. cbn [got]. split; [exact P1|]. intros S0. unfold len.
      rewrite firstn_length. specialize (Hn1 S0). lia. }
  assert (Stop : got x = [] -> (r, b') = (Ok res, b2) -> bkept u b b' /\ match r with
                  | Ok out => exists d, out = res ++ d /\ front b u = d ++ front b' u /\ line_part out /\ (0 <= size -> len out <= 2 * size)
                  | Err e => is_os e
                  end).
  { intros X [= -> ->]. split; [exact K02|]. exists []. rewrite app_nil_r. rewrite X in C2. auto. }
  destruct x as [[|y d]|]; [apply Stop; [reflexivity|symmetry; exact H]| |apply Stop; [reflexivity|symmetry; exact H]]. cbn [got] in *.
  destruct (P ltac:(discriminate)) as (P1 & P2).
  assert (L : 0 <= size -> len (res ++ y :: d) <= 2 * size).
  { intros S0. specialize (P2 S0). apply orb_true_iff in Ec. unfold len in *. rewrite app_length.
    destruct Ec as [Y|Y]; apply Z.ltb_lt in Y; lia. }
  destruct (last (y :: d) 0 =? 10) eqn:El.
  - injection H as <- <-. split; [exact K02|]. exists (y :: d). split; [reflexivity|]. split; [exact C2|]. split; [|exact L].
    unfold line_part. apply last_app_no; auto. discriminate.
  - destruct (IH (res ++ y :: d) b2 r b') as (K3 & C4); auto.
    + exact (bkept_reader _ _ _ R1 K2).
    + rewrite C2, app_length in Hf. cbn [length] in Hf. lia.
    + rewrite in_app_iff. pose proof (no_newline (y :: d) P1 El). tauto.
    + split; [exact (bkept_trans _ _ _ _ K02 K3)|]. destruct r as [out|e]; [|exact C4]. destruct C4 as (d2 & -> & C4 & C5 & C6).
      exists ((y :: d) ++ d2). rewrite app_assoc. split; [reflexivity|]. split; [|auto]. rewrite C2, C4. now rewrite app_assoc.
Qed.
Lemma pipe_readline b u size r b' : preader b u -> b_readline BReader size b = (r, b') ->
  bkept u b b' /\ match r with
                  | Ok d => front b u = d ++ front b' u /\ line_part d /\ (0 <= size -> len d <= 2 * size)
                  | Err e => is_os e
                  end.
Proof.
  intros R H. unfold b_readline, bind in H. rewrite (read_fuel_eq _ _ R) in H.
  match type of H with readline_loop ?fuel _ _ _ _ = _ => pose proof (pipe_readline_loop u size fuel [] b r b' R) as G end.
  destruct G as (K & C).
  - unfold front. rewrite app_length. lia.
  - intros [].
  - unfold len. cbn [length]. lia.
  - exact H.
  - split; [exact K|]. destruct r as [out|e]; [|exact C]. destruct C as (d & -> & C). exact C.
Qed.

(** readinto() *)
Definition readinto_err (e : exn) : Prop := is_os e \/ e = EType \/ e = EValue.
Lemma pipe_raw_readinto f w u n r w' : pend f w u -> f_readable f = true -> 0 <= n -> raw_readinto f n w = (r, w') ->
  pkept u w w' /\ match r with
                  | Ok d => inside w u = d ++ inside w' u /\ len d <= n
                  | Err e => readinto_err e
                  end.
Proof.
  intros P Hr Hn H. unfold raw_readinto in H. rewrite (checks_read f w u _ P Hr) in H. unfold bind in H.
  destruct (inner_read f n w) as [r1 w1] eqn:E. destruct (pipe_inner_read _ _ _ _ _ _ P Hr Hn E) as (K & C).
  destruct r1 as [[d|]|e]; injection H as <- <-; (split; [exact K|]); unfold readinto_err; [exact C|auto|left; apply C].
Qed.
Lemma pipe_readinto_loop u n one : forall fuel out b r b', preader b u -> (length (inside (b_w b) u) < fuel)%nat -> len out <= n ->
  readinto_loop fuel n one out b = (r, b') ->
  bkept u b b' /\ match r with
                  | Ok res => exists d, res = out ++ d /\ front b u = d ++ front b' u /\ len res <= n
                  | Err e => readinto_err e
                  end.
Proof.
  induction fuel as [|fuel IH]; intros out b r b' R Hf Hout H; [lia|]. cbn [readinto_loop] in H.
  destruct (Z.ltb_spec (Z.of_nat (length out)) n).
  2:{ injection H as <- <-. split; [now apply bkept_refl|]. exists []. rewrite app_nil_r. auto. }
  cbv zeta in H. set (avail := Z.min (Z.of_nat (length (unread b))) n) in *.
  destruct (Z.ltb_spec (n - Z.of_nat (length out)) avail).
  { injection H as <- <-. split; [now apply bkept_refl|]. unfold readinto_err. auto. }
  set (out1 := out ++ firstn (Z.to_nat avail) (unread b)) in *. set (b1 := set_rbuf b (b_rbuf b) (b_rpos b + Z.to_nat avail)) in *.
  assert (L1 : len out1 = len out + avail). { unfold out1, len. rewrite app_length, firstn_length. lia. }
  assert (K1 : bkept u b b1) by (repeat split; auto; apply (pr_end _ _ R)).
  assert (F1 : front b u = firstn (Z.to_nat avail) (unread b) ++ front b1 u).
  { unfold front, b1. rewrite unread_on. cbn [b_w set_rbuf]. now rewrite app_assoc, firstn_skipn. }
  assert (Stop : forall b2, bkept u b b2 -> front b2 u = front b1 u -> (r, b') = (Ok out1, b2) ->
     bkept u b b' /\ match r with
                  | Ok res => exists d, res = out ++ d /\ front b u = d ++ front b' u /\ len res <= n
                  | Err e => readinto_err e
                  end).
  { intros b2 K2 F2 [= -> ->]. split; [exact K2|]. eexists. split; [reflexivity|]. rewrite F2. split; [exact F1|]. unfold len in *. lia. }
  destruct (negb (avail =? 0) && (Z.of_nat (length out1) =? n)) eqn:Ed.
  { apply (Stop b1); auto. }
  assert (U1 : unread b1 = []).
  { unfold b1. rewrite unread_on. apply skipn_all2. unfold len in L1.
    destruct (Z.eqb_spec avail 0) as [X|X]; [|cbn [negb andb] in Ed; apply Z.eqb_neq in Ed]; lia. }
  pose proof (bkept_reader _ _ _ R K1) as R1.
  assert (Again : forall b2 out2 d, bkept u b b2 -> out2 = out1 ++ d -> front b1 u = d ++ front b2 u -> len out2 <= n ->
     (length (inside (b_w b2) u) < length (inside (b_w b) u))%nat ->
     (if one && negb (is_nil out2) then ret out2 else readinto_loop fuel n one out2) b2 = (r, b') ->
     bkept u b b' /\ match r with
                  | Ok res => exists d, res = out ++ d /\ front b u = d ++ front b' u /\ len res <= n
                  | Err e => readinto_err e
                  end).
  { intros b2 out2 d K2 E2 F2 L2 M2 H2. destruct (one && negb (is_nil out2)).
    - injection H2 as <- <-. split; [exact K2|]. exists (firstn (Z.to_nat avail) (unread b) ++ d). split; [now rewrite E2; unfold out1; rewrite <- app_assoc|].
      split; [|exact L2]. rewrite F1, F2. now rewrite app_assoc.
    - destruct (IH out2 b2 r b') as (K3 & C3); auto; [exact (bkept_reader _ _ _ R K2)|lia|].
      split; [exact (bkept_trans _ _ _ _ K2 K3)|]. destruct r as [res|e]; [|exact C3]. destruct C3 as (d3 & -> & C3 & C4).
      exists (firstn (Z.to_nat avail) (unread b) ++ d ++ d3). split; [now rewrite E2; unfold out1; rewrite <- !app_assoc|].
      split; [|exact C4]. rewrite F1, F2, C3. now rewrite !app_assoc. }
  destruct (b_size b <? n - Z.of_nat (length out1)) eqn:Er.
  - unfold bind at 1 in H. destruct (on_raw (fun f => raw_readinto f (n - Z.of_nat (length out1))) b1) as [r1 b2] eqn:E1.
    unfold on_raw in E1. destruct (raw_readinto (b_raw b1) (n - Z.of_nat (length out1)) (b_w b1)) as [r2 w2] eqn:E2. injection E1 as <- <-.
    assert (Z1 : 0 <= n - Z.of_nat (length out1)). { apply Z.ltb_lt in Er. pose proof (pr_size _ _ R). lia. }
    destruct (pipe_raw_readinto _ _ _ _ _ _ (pr_end _ _ R1) (pr_rd _ _ R1) Z1 E2) as (K2 & C2).
    assert (K02 : bkept u b (set_world b1 w2)). { apply (bkept_trans _ _ _ _ K1). repeat split; auto; apply K2. }
    destruct r2 as [d|e]; [|injection H as <- <-; auto]. destruct C2 as (C2 & C3).
    assert (F2 : front b1 u = d ++ front (set_world b1 w2) u).
    { unfold front. change (unread (set_world b1 w2)) with (unread b1). rewrite U1. exact C2. }
    destruct d as [|x d].
    + apply (Stop (set_world b1 w2)); [exact K02|now rewrite F2|symmetry; exact H].
    + apply (Again (set_world b1 w2) (out1 ++ x :: d) (x :: d)); auto.
      * unfold len in *. rewrite app_length. lia.
      * change (inside (b_w b) u) with (inside (b_w b1) u). rewrite C2, app_length. cbn [b_w set_world length]. lia.
  - destruct (negb (one && negb (is_nil out1))) eqn:Eo.
    + unfold bind at 1 in H. destruct (peek_unlocked 1 b1) as [r1 b2] eqn:E1. destruct (pipe_peek _ _ _ _ _ R1 E1) as (K2 & F2 & C2 & C3 & C4).
      pose proof (bkept_trans _ _ _ _ K1 K2) as K02. destruct r1 as [p|e]; [|injection H as <- <-; unfold readinto_err; auto]. subst p.
      destruct (unread b2) as [|x l] eqn:Ep.
      * apply (Stop b2); auto.
      * apply (Again b2 out1 []); auto; [now rewrite app_nil_r|unfold len in *; lia|].
        change (inside (b_w b) u) with (inside (b_w b1) u). rewrite U1 in C4. cbn [length] in C4. lia.
    + apply negb_false_iff in Eo. rewrite Eo in H. apply (Stop b1); auto.
Qed.
Lemma pipe_readinto b u n one r b' : preader b u -> reader_readinto n one b = (r, b') ->
  bkept u b b' /\ match r with
                  | Ok d => front b u = d ++ front b' u /\ (0 <= n -> len d <= n)
                  | Err e => readinto_err e
                  end.
Proof.
  intros R H. unfold reader_readinto, bind at 1 in H. rewrite (open_check _ _ R) in H. destruct (Z.eqb_spec n 0) as [->|N].
  { injection H as <- <-. split; [now apply bkept_refl|]. split; [reflexivity|]. cbn. lia. }
  unfold bind in H. rewrite (read_fuel_eq _ _ R) in H. destruct (Z.ltb_spec n 0).
  { cbn [Nat.mul Nat.add] in H. cbn [readinto_loop] in H. destruct (Z.ltb_spec (Z.of_nat (length (@nil byte))) n); [cbn in *; lia|].
    injection H as <- <-. split; [now apply bkept_refl|]. split; [reflexivity|]. lia. }
  match type of H with readinto_loop ?fuel _ _ _ _ = _ => pose proof (pipe_readinto_loop u n one fuel [] b r b' R) as G end.
  destruct G as (K & C); [lia|cbn; lia|exact H|].
  split; [exact K|]. destruct r as [res|e]; [|exact C]. destruct C as (d & -> & C). cbn [List.app] in *. destruct C. auto.
Qed.

(** * The writer *)

Record pwriter (b : bstate) (u : uid) : Prop := mkPwriter {
  pw_end : pend (b_raw b) (b_w b) u; pw_wr : f_writable (b_raw b) = true; pw_size : 0 < b_size b }.
Definition back (b : bstate) (u : uid) : list byte := inside (b_w b) u ++ b_wbuf b.
(** Only the write buffer and the pipe change. *)
Definition wkept (u : uid) (b b' : bstate) : Prop := b_raw b' = b_raw b /\ b_size b' = b_size b /\ pkept u (b_w b) (b_w b').
Lemma wkept_writer u b b' : pwriter b u -> wkept u b b' -> pwriter b' u.
Proof. intros [A B C] (E & F & G). constructor; rewrite ?E, ?F; auto. exact (pend_kept _ _ _ _ A G). Qed.
Lemma wkept_refl u b : pwriter b u -> wkept u b b.
Proof. intros [A _ _]. repeat split; auto. apply A. Qed.
Lemma wkept_trans u b b1 b2 : wkept u b b1 -> wkept u b1 b2 -> wkept u b b2.
Proof. intros (A & B & D) (E & F & H). repeat split; try congruence; [|apply H]. intros d. rewrite (proj1 H), (proj1 D). reflexivity. Qed.

(** write(2) *)
Lemma checks_write f w u {A} (m : M A) : pend f w u -> f_writable f = true -> (check_closed f ;; check_writable f ;; m) w = m w.
Proof. intros P Hr. unfold bind, check_writable, check_closed, bind, check_closed. rewrite (pe_open _ _ _ P), Hr. reflexivity. Qed.
Lemma pipe_raw_write f w u d r w' : pend f w u -> f_writable f = true -> d <> [] -> raw_write f d w = (r, w') ->
  pkept u w w' /\ match r with
                  | Ok (Some n) => 0 < n <= len d /\ inside w' u = inside w u ++ firstn (Z.to_nat n) d
                  | Ok None => inside w' u = inside w u
                  | Err e => is_os e /\ inside w' u = inside w u
                  end.
Proof.
  intros P Hw Hd H. unfold raw_write in H. rewrite (checks_write f w u _ P Hw) in H.
  destruct P as [_ (o & Ho & Hu & _ & Hp) (i & Hi & Hk)].
  unfold bind, inner_write, sys_write, bind, get_fd in H. rewrite Ho, Hu, Hi in H. cbv beta iota zeta in H.
  rewrite (Hp Hw) in H. cbn [negb] in H. rewrite next_io_eq in H. rewrite Hk in H.
  assert (G : forall e, e <> [] -> (1 <= length e <= length d)%nat -> e = firstn (length e) d ->
    (let n := Z.of_nat (length e) in
     if negb (is_nil d) && (n =? 0) then raise EAssert else if (n <? 0) || (Z.of_nat (length d) <? n) then raise ERuntime else ret (Some n))
      (upd_ino (set_io w (tl (w_io w))) (o_uid o) (mkIno KPipe (n_data i ++ e) (n_dirty i))) = (r, w') ->
    pkept u w w' /\ match r with
                  | Ok (Some n) => 0 < n <= len d /\ inside w' u = inside w u ++ firstn (Z.to_nat n) d
                  | Ok None => inside w' u = inside w u
                  | Err e => is_os e /\ inside w' u = inside w u
                  end).
  { intros e Ne Le Ee X. cbv zeta in X. destruct (Z.eqb_spec (Z.of_nat (length e)) 0); [lia|]. rewrite andb_false_r in X.
    destruct (Z.ltb_spec (Z.of_nat (length e)) 0); [lia|]. destruct (Z.ltb_spec (Z.of_nat (length d)) (Z.of_nat (length e))); [lia|].
    injection X as <- <-. rewrite Hu. split.
    - split; [reflexivity|]. eexists. unfold upd_ino. cbn [w_inodes set_inodes]. rewrite upd_same by apply uid_refl. split; reflexivity.
    - split; [unfold len; lia|]. unfold inside at 1. unfold upd_ino. cbn [w_inodes set_inodes]. rewrite upd_same by apply uid_refl. cbn [n_data].
      unfold inside. now rewrite Hi, Nat2Z.id, <- Ee. }
  assert (Ld : (0 < length d)%nat) by (destruct d; [now destruct Hd|cbn; lia]).
  assert (Q : forall e, firstn (io_count e (length d)) d <> [] /\ (1 <= length (firstn (io_count e (length d)) d) <= length d)%nat
            /\ firstn (io_count e (length d)) d = firstn (length (firstn (io_count e (length d)) d)) d).
  { intros e. pose proof (io_count_pos e _ Ld). pose proof (io_count_le e (length d)). rewrite firstn_length, Nat.min_l by lia.
    split; [|split; [lia|reflexivity]]. intros X. apply (f_equal (@length _)) in X. rewrite firstn_length in X. cbn in X. lia. }
  destruct (hd IoFull (w_io w)) as [|k|x].
  - destruct (Q IoFull) as (Q1 & Q2 & Q3). exact (G _ Q1 Q2 Q3 H).
  - destruct (Q (IoShort k)) as (Q1 & Q2 & Q3). exact (G _ Q1 Q2 Q3 H).
  - cbv beta iota delta [raise] in H. destruct (x =? EAGAIN); injection H as <- <-.
    + split; [split; [reflexivity|eauto]|reflexivity].
    + split; [split; [reflexivity|eauto]|]. split; [exists x; reflexivity|reflexivity].
Qed.

Definition write_err (e : exn) : Prop := is_os e \/ e = EBlocking 0.
Lemma pipe_flush_loop u : forall fuel b r b', pwriter b u -> (length (b_wbuf b) < fuel)%nat -> flush_loop fuel b = (r, b') ->
  wkept u b b' /\ back b' u = back b u /\ (length (b_wbuf b') <= length (b_wbuf b))%nat
  /\ match r with Ok _ => b_wbuf b' = [] | Err e => write_err e end.
Proof.
  induction fuel as [|fuel IH]; intros b r b' R Hf H; [lia|]. cbn [flush_loop] in H. destruct (b_wbuf b) as [|x buf] eqn:Eb.
  { injection H as <- <-. split; [now apply wkept_refl|]. rewrite Eb. auto. }
  unfold bind at 1, on_raw in H. destruct (raw_write (b_raw b) (x :: buf) (b_w b)) as [r1 w1] eqn:E.
  assert (Nn : x :: buf <> []) by discriminate.
  destruct (pipe_raw_write _ _ _ _ _ _ (pw_end _ _ R) (pw_wr _ _ R) Nn E) as (K & C).
  assert (K1 : wkept u b (set_world b w1)) by (repeat split; auto; apply K).
  assert (Same : inside w1 u = inside (b_w b) u -> back (set_world b w1) u = back b u) by (intros X; unfold back; cbn; now rewrite X).
  destruct r1 as [[n|]|e].
  - destruct C as (C1 & C2). destruct (Z.ltb_spec (Z.of_nat (length (x :: buf))) n); [unfold len in C1; lia|].
    destruct (Z.ltb_spec n 0); [lia|]. cbn [orb] in H. unfold bind in H.
    set (b1 := set_wbuf (set_world b w1) (skipn (Z.to_nat n) (b_wbuf (set_world b w1)))) in *.
    assert (K2 : wkept u b b1) by (repeat split; auto; apply K).
    assert (L : (length (b_wbuf b1) < length (x :: buf))%nat).
    { unfold b1. cbn [b_wbuf set_wbuf set_world]. rewrite Eb, skipn_length. cbn [length]. lia. }
    assert (F : back b1 u = back b u).
    { unfold back, b1. cbn [b_wbuf set_wbuf set_world b_w]. rewrite C2, Eb, <- app_assoc, firstn_skipn. reflexivity. }
    destruct (IH b1 r b') as (K3 & F3 & L3 & C3); auto; [exact (wkept_writer _ _ _ R K2)|lia|].
    split; [exact (wkept_trans _ _ _ _ K2 K3)|]. split; [congruence|]. split; [lia|exact C3].
  - injection H as <- <-. split; [exact K1|]. split; [now apply Same|]. cbn [b_wbuf set_world]. rewrite Eb. split; [lia|now right].
  - injection H as <- <-. split; [exact K1|]. destruct C as (C1 & C2). split; [now apply Same|]. cbn [b_wbuf set_world]. rewrite Eb. split; [lia|now left].
Qed.
Lemma pipe_flush b u r b' : pwriter b u -> flush_unlocked b = (r, b') ->
  wkept u b b' /\ back b' u = back b u /\ (length (b_wbuf b') <= length (b_wbuf b))%nat
  /\ match r with Ok _ => b_wbuf b' = [] | Err e => write_err e end.
Proof.
  intros R H. unfold flush_unlocked, bind, b_check_closed in H. rewrite (pe_open _ _ _ (pw_end _ _ R)) in H.
  exact (pipe_flush_loop u _ b r b' R (Nat.lt_succ_diag_r _) H).
Qed.

Lemma app_same_length {A} (l1 l2 l3 l4 : list A) : l1 ++ l2 = l3 ++ l4 -> length l1 = length l3 -> l1 = l3.
Proof. revert l3. induction l1 as [|x l1 IH]; intros [|y l3] E L; try discriminate; [reflexivity|]. injection E as -> E. injection L as L. f_equal. auto. Qed.
Lemma cut_both (a c p d : list Z) k m : a ++ c = p ++ d -> (k + m = length c)%nat -> (m <= length d)%nat ->
  a ++ firstn k c = p ++ firstn (length d - m) d.
Proof.
  intros E K M. apply (app_same_length _ (skipn k c) _ (skipn (length d - m) d)).
  - now rewrite <- !app_assoc, !firstn_skipn.
  - apply (f_equal (@length _)) in E. rewrite !app_length in *. rewrite !firstn_length. lia.
Qed.
Lemma pipe_write b u d r b' : pwriter b u -> writer_write d b = (r, b') ->
  wkept u b b' /\ match r with
                  | Ok n => n = len d /\ back b' u = back b u ++ d
                  | Err (EBlocking n) => 0 <= n <= len d /\ back b' u = back b u ++ firstn (Z.to_nat n) d
                  | Err e => is_os e /\ (back b' u = back b u \/ back b' u = back b u ++ d)
                  end.
Proof.
  intros R H. unfold writer_write in H. unfold bind at 1 in H. unfold b_check_closed in H. rewrite (pe_open _ _ _ (pw_end _ _ R)) in H.
  unfold bind at 1 in H.
  match type of H with (match ?x with _ => _ end) = _ => destruct x as [r1 b1] eqn:E1 end.
  assert (G : wkept u b b1 /\ back b1 u = back b u /\ match r1 with Ok _ => len (b_wbuf b1) <= b_size b1 | Err e => write_err e end).
  { destruct (Z.ltb_spec (b_size b) (Z.of_nat (length (b_wbuf b)))).
    - destruct (pipe_flush _ _ _ _ R E1) as (K & F & _ & C). split; [exact K|]. split; [exact F|]. destruct r1; [|exact C].
      rewrite C. unfold len. cbn [length]. pose proof (pw_size _ _ (wkept_writer _ _ _ R K)). lia.
    - injection E1 as <- <-. split; [now apply wkept_refl|]. split; [reflexivity|]. unfold len. lia. }
  destruct G as (K1 & F1 & C1). destruct r1 as [[]|e].
  2:{ injection H as <- <-. split; [exact K1|]. destruct C1 as [(x & ->)| ->].
      - split; [exists x; reflexivity|]. now left.
      - split; [unfold len; lia|]. cbn [Z.to_nat firstn]. now rewrite app_nil_r. }
  pose proof (wkept_writer _ _ _ R K1) as R1. unfold bind in H. set (b2 := set_wbuf b1 (b_wbuf b1 ++ d)) in *. cbv zeta in H.
  assert (K2 : wkept u b b2) by (destruct K1 as (A & B & D); repeat split; auto; apply D).
  pose proof (wkept_writer _ _ _ R K2) as R2.
  assert (F2 : back b2 u = back b u ++ d). { rewrite <- F1. unfold back, b2. cbn [b_w b_wbuf set_wbuf]. now rewrite app_assoc. }
  destruct (Z.ltb_spec (b_size b2) (Z.of_nat (length (b_wbuf b2)))).
  2:{ injection H as <- <-. split; [exact K2|]. split; [reflexivity|exact F2]. }
  destruct (flush_unlocked b2) as [r3 b3] eqn:E3. destruct (pipe_flush _ _ _ _ R2 E3) as (K3 & F3 & L3 & C3).
  pose proof (wkept_trans _ _ _ _ K2 K3) as K03. destruct r3 as [[]|e].
  { injection H as <- <-. split; [exact K03|]. split; [reflexivity|congruence]. }
  destruct C3 as [(x & ->)| ->].
  { injection H as <- <-. split; [exact K03|]. split; [exists x; reflexivity|right; congruence]. }
  destruct (Z.ltb_spec (b_size b3) (Z.of_nat (length (b_wbuf b3)))).
  2:{ injection H as <- <-. split; [exact K03|]. split; [reflexivity|congruence]. }
  injection H as <- <-. split; [destruct K03 as (A & B & D); repeat split; auto; apply D|].
  assert (Sz : b_size b3 = b_size b1). { destruct K3 as (_ & X & _). rewrite X. reflexivity. }
  assert (L2 : length (b_wbuf b2) = (length (b_wbuf b1) + length d)%nat) by (unfold b2; cbn [b_wbuf set_wbuf]; apply app_length).
  unfold len in *. split; [lia|].
  set (over := Z.of_nat (length (b_wbuf b3)) - b_size b3) in *. set (k := Z.to_nat (b_size b3)).
  replace (Z.to_nat (Z.of_nat (length d) - over)) with (length d - Z.to_nat over)%nat by lia.
  unfold back at 1. cbn [b_w b_wbuf set_wbuf]. apply cut_both; [|lia|lia]. change (back b3 u = back b u ++ d). congruence.
Qed.
