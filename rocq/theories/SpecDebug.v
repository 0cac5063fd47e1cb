(** What the debugging output of an assembled program says. *)
From Verif Require Import Base ModelMnemonic ModelStatement ModelModule SpecScope SpecLayout SpecAssemble SpecText.
Open Scope string_scope.
Open Scope list_scope.
Open Scope Z_scope.

(** The first eleven columns: six hexadecimal digits of a value, or nothing. *)
Definition column (v : option Z) (c : string) : Prop :=
  match v with
  | None => c = "           "
  | Some v => exists d, numeral 16 d 6 (v mod 2 ^ 24) /\ c = (d ++ "     ")%string
  end.
Definition label_line (n : string * bool) : string := ("       " ++ fst n ++ ":")%string.
(** What is printed for an element of the source: its labels, each on a line of its own, and
    its statement with the value it has. *)
Definition entry_block (e : list (string * bool) * statement) (l : line) (block : list string) : Prop :=
  resolved (snd e) l /\
  exists c, column (ln_value l) c /\
    block = map label_line (fst e) ++ [(c ++ stmt_to_string (ln_stmt l))%string].
(** What is printed for a file. *)
Definition file_block (path : string) (file : list string) (m : module) (out : list string) : Prop :=
  exists src blocks, SpecScope.reads file src /\ List.length src = List.length (md_lines m) /\
    List.length blocks = List.length src /\
    (forall k e l b, nth_error src k = Some e -> nth_error (md_lines m) k = Some l -> nth_error blocks k = Some b -> entry_block e l b) /\
    out = ("  === debug info for " ++ path)%string :: concat blocks.
