(** C43: incremental newline decoding does not depend on how the text is cut. *)
From Coq Require Import ZArith List Bool.
From Verif Require Import M_Base M_Newline S_Newline P_Newline.
Import ListNotations.
Open Scope Z_scope.

(** Every text has one decomposition into line endings and other characters. *)
Theorem C43_pieces_exist : forall s, exists ps, pieces s ps.
Proof. exact pieces_exist. Qed.

(** When translating, the outputs together are the text with each "\r\n", "\r" and "\n" replaced by "\n", whatever the
    chunks. *)
Theorem C43_translated : forall chunks ps, chunks <> [] -> pieces (concat chunks) ps ->
  concat (fst (nl_run true chunks nl_init)) = flat_map translated ps.
Proof. intros chunks ps H P. rewrite (nl_run_output true chunks nl_init H). cbn [held nl_pending nl_init app emit]. exact (univ_pieces _ _ P). Qed.

(** So two ways of cutting the same text give the same characters. *)
Theorem C43_chunk_independent : forall translate c1 c2, c1 <> [] -> c2 <> [] -> concat c1 = concat c2 ->
  concat (fst (nl_run translate c1 nl_init)) = concat (fst (nl_run translate c2 nl_init)).
Proof. intros t c1 c2 H1 H2 E. rewrite (nl_run_output t c1 nl_init H1), (nl_run_output t c2 nl_init H2), E. reflexivity. Qed.

(** When not translating nothing is lost or changed, and no cut between outputs falls inside "\r\n". *)
Theorem C43_untranslated : forall chunks, chunks <> [] -> concat (fst (nl_run false chunks nl_init)) = concat chunks.
Proof. intros chunks H. exact (nl_run_output false chunks nl_init H). Qed.
Theorem C43_no_split : forall chunks before after x t,
  fst (nl_run false chunks nl_init) = before ++ after -> concat before = x ++ [13] -> concat after = 10 :: t -> False.
Proof.
  intros chunks a b x t H Ha Hb. apply (nl_run_clean chunks nl_init a b H) with t; [|exact Hb].
  rewrite Ha, ends_cr_app. reflexivity.
Qed.

(** There is one output per input chunk, and nothing is held back at the end. *)
Theorem C43_one_output_each : forall translate chunks s, length (fst (nl_run translate chunks s)) = length chunks.
Proof. exact nl_run_length. Qed.
Theorem C43_nothing_pending : forall translate chunks, chunks <> [] -> nl_pending (snd (nl_run translate chunks nl_init)) = false.
Proof. intros t chunks H. exact (proj2 (nl_run_seen t chunks nl_init H)). Qed.

(** The newlines attribute names exactly the kinds of line ending in the text. *)
Theorem C43_newlines_seen : forall translate chunks ps, chunks <> [] -> pieces (concat chunks) ps ->
  let s := snd (nl_run translate chunks nl_init) in
  (nl_crlf s = true <-> In PCrLf ps) /\ (nl_cr s = true <-> In PCr ps) /\ (nl_lf s = true <-> In PLf ps).
Proof.
  intros t chunks ps H P. cbv zeta. apply (seen_pieces (concat chunks) ps); [exact P|].
  exact (proj1 (nl_run_seen t chunks nl_init H)).
Qed.

(** Non-vacuity: "a\r\nb\rc\n\r" cut inside the "\r\n", and with empty chunks. *)
Definition ex_chunks : list (list Z) := [[97; 13]; []; [10; 98; 13; 99]; [10; 13]; []].
Example C43_ex_translated : nl_run true ex_chunks nl_init = ([[97]; []; [10; 98; 10; 99]; [10]; [10]], mkNl true true true false).
Proof. vm_compute. reflexivity. Qed.
Example C43_ex_untranslated : fst (nl_run false ex_chunks nl_init) = [[97]; []; [13; 10; 98; 13; 99]; [10]; [13]].
Proof. vm_compute. reflexivity. Qed.
Example C43_ex_pieces : pieces (concat ex_chunks) [PChar 97; PCrLf; PChar 98; PCr; PChar 99; PLf; PCr].
Proof.
  change (concat ex_chunks) with (spelling (PChar 97) ++ spelling PCrLf ++ spelling (PChar 98) ++ spelling PCr ++ spelling (PChar 99) ++ spelling PLf ++ spelling PCr ++ []).
  repeat (constructor; [first [exact Logic.I|split; discriminate]|intros F t; first [discriminate F|discriminate]|]). constructor.
Qed.

Print Assumptions C43_translated.
Print Assumptions C43_no_split.
Print Assumptions C43_newlines_seen.
Print Assumptions C43_pieces_exist.
Print Assumptions C43_chunk_independent.
Print Assumptions C43_untranslated.
Print Assumptions C43_one_output_each.
Print Assumptions C43_nothing_pending.
