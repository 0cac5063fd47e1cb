(** Text and its lines. *)
From Verif Require Import Base SpecText.
Open Scope string_scope.

(** The end of a line, and lines written out each with its end. *)
Definition eol : ascii := "010"%char.
Definition one_line (s : string) : Prop := no_char eol s.
Fixpoint written_out (ls : list string) : string :=
  match ls with [] => "" | l :: ls' => l ++ String eol (written_out ls') end.
(** A text that consists of the given lines; the end of the last one may be missing if
    there is anything on it. *)
Definition has_lines (t : string) (ls : list string) : Prop :=
  Forall one_line ls /\
  (t = written_out ls \/
   exists ls' l, ls = (ls' ++ [l])%list /\ l <> "" /\ t = written_out ls' ++ l).
(** With other ends: a carriage return before every end of line. *)
Fixpoint with_returns (t : string) : string :=
  match t with
  | EmptyString => ""
  | String c t' => if Ascii.eqb c eol then String "013" (String eol (with_returns t')) else String c (with_returns t')
  end.
(** Lines that differ in space at their ends only. *)
Definition same_line (s t : string) : Prop :=
  exists a b c d u, spaces a /\ spaces b /\ spaces c /\ spaces d /\ s = a ++ u ++ b /\ t = c ++ u ++ d.
