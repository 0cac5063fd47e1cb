(** Orders of assembly. *)
From Coq Require Import Permutation.
From Verif Require Import Base ModelExpr ModelModule.

(** The names a module exports: its module-level definitions, qualified by its name. *)
Definition exports (m : module) : list fullid :=
  map (fun g => FullId (Some (md_name m)) (fst g)) (md_globals m).

(** Every module comes after modules exporting the names it depends on. *)
Definition respects (l : list module) : Prop :=
  forall before m after, l = (before ++ m :: after)%list ->
  forall id, In id (md_deps m) -> exists m', In m' before /\ In id (exports m').

(** The modules can be put in such an order. *)
Definition orderable (ms : list module) : Prop := exists l, Permutation l ms /\ respects l.

(** No name is exported twice. *)
Definition unique_exports (ms : list module) : Prop := NoDup (flat_map exports ms).

(** The modules with the given positions (from 0), in that order. *)
Definition pick (ms : list module) (order : list Z) (l : list module) : Prop :=
  Forall2 (fun i m => 0 <= i /\ nth_error ms (Z.to_nat i) = Some m) order l.
