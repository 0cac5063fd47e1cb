(** Case-insensitive comparison of names. *)
From Verif Require Import Base.
Open Scope string_scope.
Open Scope Z_scope.

(** The same character, or an upper and a lower case version of the same letter
    (ASCII: A..Z is 65..90, a..z is 97..122). *)
Definition same_letter (c d : ascii) : Prop :=
  code c = code d \/
  (65 <= code c <= 90 /\ code d = code c + 32) \/
  (65 <= code d <= 90 /\ code c = code d + 32).

Inductive same_name : string -> string -> Prop :=
| sn_nil : same_name "" ""
| sn_cons : forall c d s t, same_letter c d -> same_name s t ->
    same_name (String c s) (String d t).
