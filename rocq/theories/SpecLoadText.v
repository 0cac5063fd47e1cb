(** Where the labels of a statement are defined. *)
From Verif Require Import Base ModelMnemonic ModelMap ModelStatement ModelModule.
Open Scope string_scope.
Open Scope list_scope.
Open Scope Z_scope.

(** At the top of the module: exported labels, and all labels outside of blocks. *)
Definition at_top (scopes : list Z) (exported : bool) : bool := exported || match scopes with [] => true | _ => false end.
(** The names defined at the top, or in the innermost open block. *)
Definition names_at (m : module) (scopes : list Z) (top : bool) : list string :=
  if top then map fst (md_globals m)
  else match scopes with
       | [] => []
       | i :: _ => match znth (md_lines m) i with Some l => map fst (ln_locals l) | None => [] end
       end.
(** Those of the labels that are defined there. *)
Definition labels_at (scopes : list Z) (top : bool) (labels : list (string * bool)) : list string :=
  map fst (filter (fun x => Bool.eqb (at_top scopes (snd x)) top) labels).
