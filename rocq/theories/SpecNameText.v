(** The names in an expression. *)
From Verif Require Import Base ModelExpr ModelInstr ModelStatement ModelMap ModelModule ModelAssembler.
Open Scope string_scope.
Open Scope list_scope.
Open Scope Z_scope.

(** From left to right. *)
Fixpoint ids (e : expr) : list fullid :=
  match e with
  | ELit _ _ => []
  | EId id _ => [id]
  | EBin _ l r => ids l ++ ids r
  | EUn _ a => ids a
  | ELabel _ h => ids h
  end.
(** The name under which other modules are searched: one without a module is searched in the module without a name. *)
Definition outside (id : fullid) : fullid := match fi_module id with Some _ => id | None => FullId (Some "") (fi_name id) end.
(** A name has a line in the module: in an open block (names without a module only), or at the top. *)
Definition has_line (m : module) (scopes : list Z) (id : fullid) : Prop :=
  (fi_module id = None /\ exists i l, In i scopes /\ znth (md_lines m) i = Some l /\ In (fi_name id) (map fst (ln_locals l))) \/
  ((fi_module id = None \/ fi_module id = Some (md_name m)) /\ In (fi_name id) (map fst (md_globals m))).
(** The names in a statement. *)
Definition opt_ids (e : option expr) : list fullid := match e with Some e => ids e | None => [] end.
Definition stmt_ids (s : statement) : list fullid :=
  match s with SInstr i => opt_ids (i_arg1 i) ++ opt_ids (i_arg2 i) | SDir d => opt_ids (d_arg d) ++ flat_map ids (d_list d) end.
