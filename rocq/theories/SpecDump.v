(** The bytes that a dump of an image shows. *)
From Verif Require Import Base ModelModule SpecArith.

(** How many bytes a value has and how many values there are, for the given arguments. *)
Definition value_width (stride : Z) : Z := if stride =? 2 then 2 else if stride =? 3 then 3 else 1.
Definition value_count (count : Z) : Z := Z.max 1 count.
Definition dump_size (count stride : Z) : Z := value_width stride * value_count count.

(** Writes that follow one another in a bank, from [a] on. *)
Fixpoint in_a_row (a : Z) (ws : list write) : Prop :=
  match ws with
  | [] => True
  | (b, data) :: ws' => b = a /\ in_a_row (same_bank_plus a (Z.of_nat (List.length data))) ws'
  end.
