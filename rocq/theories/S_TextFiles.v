(** Specification vocabulary for whole text files. *)
From Coq Require Import ZArith List Bool.
From Verif Require Import M_Base M_Text S_Text.
Import ListNotations.
Open Scope Z_scope.

(** What is written for the text [s]: each "\n" becomes the line ending that the newline argument asks for; [sep] is os.linesep. *)
Definition line_ending (nl : nlarg) (sep : list Z) : list Z :=
  match nl with NlNone => sep | NlEmpty | NlLf => [10] | NlCr => [13] | NlCrLf => [13; 10] end.
Definition as_written (nl : nlarg) (sep s : list Z) : list Z := flat_map (fun x => if x =? 10 then line_ending nl sep else [x]) s.

(** The texts that survive being written and read with the newline argument [nl]. *)
Definition survives (nl : nlarg) (s : list Z) : Prop :=
  match nl with
  | NlNone => ~ In 13 s
  | NlEmpty | NlLf => True
  | NlCr | NlCrLf => ~ In 10 s
  end.

(** What is asked of a codec here; less than S_Text.good_codec. *)
Record plain_codec (cd : codec) : Prop := mkPlain {
  (** nothing more comes out of a decoder after the end of its input *)
  pc_end : forall x out s, cd_decode cd ([], cd_d0 cd) x true = Some (out, s) -> exists s', cd_decode cd s [] true = Some ([], s');
  (** the decoder inverts the encoder *)
  pc_inverse : forall s b e, cd_encode cd (cd_e0 cd) s = Some (b, e) -> exists st, cd_decode cd ([], cd_d0 cd) b true = Some (s, st) }.

(** What was encoded in two times, the second one by an encoder told that it is not at the start of the file (state 0, as TextIOWrapper has
    it), is what is encoded at once. *)
Record appendable (cd : codec) : Prop := mkAppendable {
  ap_nil : forall s e, cd_encode cd (cd_e0 cd) s = Some ([], e) -> s = [];
  ap_app : forall s1 b1 e1 s2 b2 e2,
    cd_encode cd (cd_e0 cd) s1 = Some (b1, e1) -> b1 <> [] -> cd_encode cd 0 s2 = Some (b2, e2) ->
    exists e, cd_encode cd (cd_e0 cd) (s1 ++ s2) = Some (b1 ++ b2, e) }.

(** [b]: the bytes of a file in which the text [s] was written (an empty file, if nothing was). *)
Definition bytes_of (cd : codec) (s b : list Z) : Prop := (s = [] /\ b = []) \/ exists e, cd_encode cd (cd_e0 cd) s = Some (b, e).
