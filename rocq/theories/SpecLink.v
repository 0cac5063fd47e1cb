(** What modules tell each other. *)
From Verif Require Import Base ModelExpr ModelModule SpecOrder.
Open Scope list_scope.

(** One of the modules exports the name and gives it the value. *)
Definition tells (ms : list module) (id : fullid) (v : Z) : Prop :=
  exists m, In m ms /\ In id (exports m) /\ value_for_name m id = Ok v.
