(** Messages of FindAssemblyOrder. *)
From Verif Require Import Base ModelMnemonic ModelExpr ModelMap ModelModule ModelAssembler ModelLocation ModelRomText ModelParseText.
Open Scope string_scope.
Open Scope list_scope.
Open Scope Z_scope.

(** nsasm/assembler.cc:42-51. *)
Fixpoint t_add_exports (i : Z) (exported : list (fullid * location)) (names : list (fullid * (Z * location)))
  : pres (list (fullid * (Z * location))) :=
  match exported with
  | [] => POk names
  | (id, l) :: rest =>
      match assoc_id id names with
      | Some (_, first) =>
          PErr (RError E_duplicate
            ("Duplicate defintion of `" ++ fullid_to_string id ++ "` (conflicting definition at " ++ loc_to_string l ++ ")")%string
            (loc_update no_location first))
      | None => t_add_exports i rest (names ++ [(id, (i, l))])
      end
  end.
(** nsasm/assembler.cc:27-54. *)
Fixpoint t_order_sweep (i : Z) (ms : list lmodule) (order : list Z) (names : list (fullid * (Z * location))) (found : bool)
  : pres (list Z * list (fullid * (Z * location)) * bool) :=
  match ms with
  | [] => POk (order, names, found)
  | m :: ms' =>
      if existsb (Z.eqb i) order then t_order_sweep (i + 1) ms' order names found
      else if forallb (fun d => has_id d names) (md_deps (lm_mod m)) then
        let^ names := t_add_exports i (lexported_names m) names in
        t_order_sweep (i + 1) ms' (order ++ [i]) names true
      else t_order_sweep (i + 1) ms' order names found
  end.
(** nsasm/assembler.cc:25-60. *)
Fixpoint t_order_loop (fuel : nat) (ms : list lmodule) (order : list Z) (names : list (fullid * (Z * location)))
  : pres (list Z * list (fullid * (Z * location))) :=
  if zlen order <? zlen ms then
    match fuel with
    | O => PFuel
    | S f =>
        let^ r := t_order_sweep 0 ms order names false in
        let '(order', names', found) := r in
        if found then t_order_loop f ms order' names'
        else PErr (RError E_cycle "Cyclic dependency in .equ definitions" no_location)
    end
  else POk (order, names).
(** nsasm/assembler.cc:19-61. *)
Definition t_find_assembly_order (ms : list lmodule) : pres (list Z * list (fullid * (Z * location))) :=
  t_order_loop (List.length ms) ms [] [].
