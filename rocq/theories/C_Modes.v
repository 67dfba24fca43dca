(** Final statements: mode strings (C01-C04) and the argument part of C29. *)
From Coq Require Import ZArith List Bool Ascii Permutation.
From Verif Require Import M_Base M_Modes S_Modes P_Modes.
Import ListNotations.
Open Scope char_scope.

(** In all statements [plain_open py_u p m] is what rsopen(p, m) computes from
    its arguments before opening the file: parse + checks (P_Modes.plain_open =
    M_Modes.rsopen_prelude followed by M_Modes.init_checks), for a non-empty path
    without NUL character. *)

(** C01 + C03: exactly the documented strings are accepted; everything else raises
    BadValueTypeError. *)
Theorem C01_accepted_modes : forall py_u p m, good_path p ->
  (exists rk ek, plain_open py_u p m = Ok (rk, ek)) <-> (std_ok py_u m \/ adv_ok m).
Proof. exact accepts_iff. Qed.

Theorem C01_rejected_modes : forall py_u p m, good_path p ->
  ~ (std_ok py_u m \/ adv_ok m) -> plain_open py_u p m = Err EBadValue.
Proof. exact rejects_with_badvalue. Qed.

(** C01: the meaning of a standard mode. *)
Theorem C01_standard_meaning : forall py_u p m rk ek, good_path p ->
  std_ok py_u m -> plain_open py_u p m = Ok (rk, ek) -> std_means m (wish_of rk ek).
Proof. exact std_meaning. Qed.

(** C01: the order of the characters is irrelevant, whatever the other arguments. *)
Theorem C01_order_irrelevant : forall py_u name m m' fileno handle closefd,
  Permutation m m' ->
  parse_mode py_u name m fileno handle closefd = parse_mode py_u name m' fileno handle closefd.
Proof. exact parse_mode_perm. Qed.

(** C03: the meaning of an advanced mode. *)
Theorem C03_advanced_meaning : forall py_u p m rk ek, good_path p ->
  adv_ok m -> plain_open py_u p m = Ok (rk, ek) -> adv_means m (wish_of rk ek).
Proof. exact adv_meaning. Qed.

(** C02: the documented equivalence table, for every spelling. *)
Theorem C02_equivalence_table : forall py_u p std adv sb ab m m',
  good_path p ->
  In (std, adv) equivalence_table -> In (sb, ab) suffixes ->
  same_chars m (std ++ sb) -> same_chars m' (adv ++ ab) ->
  exists wanted, plain_open py_u p m = Ok wanted /\ plain_open py_u p m' = Ok wanted.
Proof. intros py_u p std adv sb ab m m'. exact (table_equiv py_u p std adv sb ab m m'). Qed.

(** C04: agreement with the stdlib parser on all strings without upper case
    letters other than U (Python >= 3.11). *)
Theorem C04_stdlib_agreement : forall p m,
  good_path p -> (forall c, In c m -> is_upper c = false \/ c = "U") ->
  match pyio_open_mode m with
  | Ok (fl, binary) =>
      exists rk ek, plain_open false p m = Ok (rk, ek)
        /\ of_rd (unix_open_flags rk) = of_rd fl
        /\ of_wr (unix_open_flags rk) = of_wr fl
        /\ of_append (unix_open_flags rk) = of_append fl
        /\ of_creat (unix_open_flags rk) = of_creat fl
        /\ of_excl (unix_open_flags rk) = of_excl fl
        /\ ek_truncate ek = of_trunc fl
        /\ of_trunc (unix_open_flags rk) = false
        /\ ek_binary ek = binary
  | Err _ => plain_open false p m = Err EBadValue
  end.
Proof. exact stdlib_agree. Qed.

(** Non-vacuity. *)
Example C01_ex_accept : std_ok false ["+"; "b"; "r"].
Proof. apply std_okb_ok. reflexivity. Qed.
Example C01_ex_accept_U : std_ok true ["U"; "t"] /\ ~ std_ok false ["U"; "t"].
Proof. split; [apply std_okb_ok; reflexivity|]. intros H. apply std_okb_ok in H. discriminate. Qed.
Example C01_ex_path : good_path ["f"; "."; "t"].
Proof. split; [discriminate|]. cbn. intros H. decompose [or] H; discriminate || contradiction. Qed.
Example C01_ex_reject : plain_open false ["f"] ["r"; "w"] = Err EBadValue
  /\ plain_open false ["f"] ["r"; "W"] = Err EBadValue /\ plain_open false ["f"] [] = Err EBadValue.
Proof. repeat split; reflexivity. Qed.
Example C03_ex_accept : adv_ok ["E"; "R"; "W"; "S"; "B"].
Proof. apply adv_okb_ok. reflexivity. Qed.
Example C03_ex_reject : ~ adv_ok ["C"; "N"; "W"] /\ ~ adv_ok ["R"; "E"] /\ adv_ok ["R"; "E"; "C"].
Proof.
  split; [|split]; [intros H; apply adv_okb_ok in H; discriminate
    |intros H; apply adv_okb_ok in H; discriminate|apply adv_okb_ok; reflexivity].
Qed.
Example C02_ex : In (["w"; "+"], ["R"; "W"; "E"]) equivalence_table
  /\ same_chars ["+"; "b"; "w"] (["w"; "+"] ++ ["b"]).
Proof.
  split; [cbn; auto|]. split; [apply has_dup_NoDup; reflexivity|].
  intros c. cbn. tauto.
Qed.
Example C04_ex : exists fl, pyio_open_mode ["+"; "w"; "b"] = Ok (fl, true) /\ of_trunc fl = true.
Proof. eexists; split; reflexivity. Qed.

Print Assumptions C01_accepted_modes.
Print Assumptions C01_rejected_modes.
Print Assumptions C01_standard_meaning.
Print Assumptions C01_order_irrelevant.
Print Assumptions C02_equivalence_table.
Print Assumptions C03_advanced_meaning.
Print Assumptions C04_stdlib_agreement.
