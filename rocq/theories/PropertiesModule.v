(** Properties of loading source files: scopes, definitions, dependencies and order. *)
From Coq Require Import Permutation.
From Verif Require Import Base ModelNumeric ModelMnemonic ModelExpr ModelState ModelInstr ModelStatement
  ModelToken ModelParse ModelMap ModelRanges ModelModule ModelAssembler.
From Verif Require Import SpecScope SpecOrder OrderProofs ScopeProofs PassProofs.
Local Open Scope list_scope.
Local Open Scope string_scope.
Local Open Scope Z_scope.

(** C24.  A file loads if and only if all its lines can be read, its blocks are balanced, no
    name is defined twice in a scope, and it has at most one .module directive. *)
Theorem C24_load : forall file, (exists m, load_asm_file file = Ok m) <->
  exists src, SpecScope.reads file src /\ balanced (map snd src) /\ no_duplicates src /\ one_module src.
Proof. exact load_iff. Qed.
Example C24_load_case :
  let file := [".module main"; "n: .equ 1"; ".begin"; "n: .equ 2"; "export o: .equ 9"; "{";
               "aa: .equ n + o + lib::val"; "}"; ".end"; "bb: .equ n + z"] in
  is_ok (load_asm_file file) = true /\
  load_asm_file (file ++ ["o: .equ 3"]) = Err E_duplicate /\ load_asm_file (file ++ ["n:m:n: .equ 3"]) = Err E_duplicate /\
  load_asm_file (file ++ ["{"]) = Err E_scope /\ load_asm_file ("}" :: "{" :: file) = Err E_scope /\
  is_ok (load_asm_file (file ++ [".module lib"])) = false /\ is_ok (load_asm_file (file ++ ["aa: .equ 3"])) = true.
Proof. vm_compute. repeat split. Qed.
Print Assumptions C24_load.

(** C23.  In the context of a statement, a name is looked up as the definition it denotes:
    in the innermost block around the statement that defines it, or else in the module.  The
    passes do not change this. *)
Theorem C23_lookup : forall file m0 m src k l n t, load_asm_file file = Ok m0 -> SpecScope.reads file src ->
  same_scopes m0 m -> nth_error (md_lines m) k = Some l ->
  (local_index m n (ln_scopes l) = Ok t <-> denotes src (Z.of_nat k) n t).
Proof. exact lookup_denotes. Qed.
Example C23_lookup_case :
  let file := [".module main"; "n: .equ 1"; ".begin"; "n: .equ 2"; "export o: p: .equ 9"; "{";
               "aa: .equ n + o + lib::val"; "}"; ".end"; "bb: .equ n + z"] in
  is_ok (load_asm_file file) = true /\ (exists src, SpecScope.reads file src) /\
  forall src, SpecScope.reads file src ->
    denotes src 6 "n" 3 /\ denotes src 6 "aa" 6 /\ denotes src 9 "n" 1 /\ denotes src 9 "o" 4 /\
    denotes src 6 "p" 4 /\ forall t, ~ denotes src 9 "p" t.
Proof.
  intros file. split; [vm_compute; reflexivity|]. split; [eexists; eapply read_file_ok; vm_compute; reflexivity|].
  intros src R. pose proof (fun k n r => denoted_ok file src k n r R) as D.
  split; [apply (D 6%nat _ (Some 3)); vm_compute; reflexivity|].
  split; [apply (D 6%nat _ (Some 6)); vm_compute; reflexivity|].
  split; [apply (D 9%nat _ (Some 1)); vm_compute; reflexivity|].
  split; [apply (D 9%nat _ (Some 4)); vm_compute; reflexivity|].
  split; [apply (D 6%nat _ (Some 4)); vm_compute; reflexivity|].
  intros t T. apply (D 9%nat _ None) in T; [discriminate T|vm_compute; reflexivity].
Qed.
Print Assumptions C23_lookup.

(** The value of a name in an expression is the value of the statement it denotes, and that
    of the module without name if it denotes none. *)
Theorem C23_values : forall file m0 m src k l n ext, load_asm_file file = Ok m0 -> SpecScope.reads file src ->
  same_scopes m0 m -> nth_error (md_lines m) k = Some l ->
  (forall t, denotes src (Z.of_nat k) n t ->
     exists l', nth_error (md_lines m) (Z.to_nat t) = Some l' /\
       module_ctx m (ln_scopes l) ext (FullId None n) =
       match ln_value l' with Some v => Ok v | None => Err E_before_def end) /\
  ((forall t, ~ denotes src (Z.of_nat k) n t) ->
     module_ctx m (ln_scopes l) ext (FullId None n) = ext (FullId (Some "") n)).
Proof. exact values_denote. Qed.
Theorem C23_qualified : forall file m0 m src scopes mn n ext, load_asm_file file = Ok m0 ->
  SpecScope.reads file src -> same_scopes m0 m ->
  (forall t, module_named src mn -> defined src None n t ->
     exists l', nth_error (md_lines m) (Z.to_nat t) = Some l' /\
       module_ctx m scopes ext (FullId (Some mn) n) =
       match ln_value l' with Some v => Ok v | None => Err E_before_def end) /\
  (~ (module_named src mn /\ exists t, defined src None n t) ->
     module_ctx m scopes ext (FullId (Some mn) n) = ext (FullId (Some mn) n)).
Proof. exact values_qualified. Qed.
Example C23_values_case :
  let file := [".module main"; "n: .equ 1"; ".begin"; "n: .equ 2"; "aa: .equ n + ext"; ".end"] in
  let ext := fun id => if String.eqb (fi_name id) "ext" then Ok 40 else Ok 50 in
  exists m0 m1 m l, load_asm_file file = Ok m0 /\ run_first_pass 9 m0 = Ok m1 /\
    run_second_pass (fun _ => ext) m1 = Ok m /\ nth_error (md_lines m) 4 = Some l /\
    module_ctx m (ln_scopes l) ext (FullId None "n") = Ok 2 /\
    module_ctx m (ln_scopes l) ext (FullId None "aa") = Ok 42 /\
    module_ctx m (ln_scopes l) ext (FullId None "ext") = Ok 40 /\
    module_ctx m (ln_scopes l) ext (FullId (Some "main") "n") = Ok 1 /\
    module_ctx m (ln_scopes l) ext (FullId (Some "main") "aa") = Ok 50.
Proof. eexists _, _, _, _. repeat (split; [vm_compute; reflexivity|]). vm_compute. reflexivity. Qed.
Print Assumptions C23_values.
Print Assumptions C23_qualified.

(** Names and scopes are the same after the passes. *)
Theorem C23_passes : forall m m',
  (forall fuel, run_first_pass fuel m = Ok m' -> same_scopes m m') /\
  (forall ext, run_second_pass ext m = Ok m' -> same_scopes m m').
Proof. intros m m'. split; intros x. exact (first_pass_scopes x m m'). exact (second_pass_scopes x m m'). Qed.
Example C23_passes_case : exists m m', load_asm_file ["n: .equ 1"; "{"; "n: .equ 2"; "}"] = Ok m /\
  run_first_pass 9 m = Ok m' /\ same_scopes m m' /\ m' = m /\
  exists m2, run_second_pass (fun _ => null_ctx) m = Ok m2 /\ same_scopes m m2 /\ m2 <> m.
Proof.
  eexists _, _. split; [vm_compute; reflexivity|]. split; [vm_compute; reflexivity|]. split; [apply same_scopes_refl|].
  split; [reflexivity|]. eexists. split; [vm_compute; reflexivity|]. split; [repeat split|]. discriminate.
Qed.
Print Assumptions C23_passes.

(** C29.  The dependencies of a file are the names of other modules in its .equ directives. *)
Theorem C29_dependencies : forall file m src id, load_asm_file file = Ok m -> SpecScope.reads file src ->
  (In id (md_deps m) <-> needs src id).
Proof. exact deps_exact. Qed.
Example C29_dependencies_case : exists m, load_asm_file
    [".module main"; "n: .equ 1"; "{"; "p: .equ 2"; "aa: .equ n + p - lib::val * -main::q"; "}"; "bb: .equ n + p + main::n"] = Ok m /\
  md_deps m = [FullId (Some "lib") "val"; FullId (Some "main") "q"; FullId (Some "") "p"].
Proof. eexists. split; vm_compute; reflexivity. Qed.
Print Assumptions C29_dependencies.

(** When an order is found, it lists every module once, every dependency is exported by a
    strictly earlier module, and exported names are unique; the table of names holds exactly
    the exports. *)
Theorem C29_order : forall ms order names, find_assembly_order ms = Ok (order, names) ->
  exists l, pick ms order l /\ Permutation l ms /\ NoDup order /\ respects l /\ unique_exports ms /\
    (forall id i, assoc_id id names = Some i <->
       exists m, 0 <= i /\ nth_error ms (Z.to_nat i) = Some m /\ In id (exports m)).
Proof. exact order_sound. Qed.
(** An order is found if and only if there is one and exported names are unique; otherwise
    the error says what is wrong. *)
Theorem C29_exact : forall ms,
  ((exists order names, find_assembly_order ms = Ok (order, names)) <-> orderable ms /\ unique_exports ms) /\
  ((exists order names, find_assembly_order ms = Ok (order, names)) \/
   find_assembly_order ms = Err E_duplicate \/ find_assembly_order ms = Err E_cycle) /\
  (unique_exports ms -> ~ orderable ms -> find_assembly_order ms = Err E_cycle) /\
  (orderable ms -> ~ unique_exports ms -> find_assembly_order ms = Err E_duplicate).
Proof. exact order_exact. Qed.
Example C29_case : exists a b c d,
  load_asm_file [".module aa"; "u: .equ bb::val"] = Ok a /\ load_asm_file [".module bb"; "val: .equ z"] = Ok b /\
  load_asm_file ["z: .equ 3"] = Ok c /\ load_asm_file [".module bb"; "val: .equ aa::u"] = Ok d /\
  find_assembly_order [a; b; c] =
    Ok ([2; 1; 0], [(FullId (Some "") "z", 2); (FullId (Some "bb") "val", 1); (FullId (Some "aa") "u", 0)]) /\
  find_assembly_order [a; d] = Err E_cycle /\ find_assembly_order [b; c; c] = Err E_duplicate /\
  find_assembly_order [a; b] = Err E_cycle.
Proof. eexists _, _, _, _. repeat (split; [vm_compute; reflexivity|]). vm_compute. reflexivity. Qed.
Print Assumptions C29_order.
Print Assumptions C29_exact.

(** C30.  Whether an order is found does not depend on the order of the files. *)
Theorem C30_permutation : forall ms ms', Permutation ms ms' ->
  ((exists order names, find_assembly_order ms = Ok (order, names)) <->
   (exists order names, find_assembly_order ms' = Ok (order, names))).
Proof. exact order_permutation. Qed.
Example C30_case : exists a b c,
  load_asm_file [".module aa"; "u: .equ bb::val"] = Ok a /\ load_asm_file [".module bb"; "val: .equ z"] = Ok b /\
  load_asm_file ["z: .equ 3"] = Ok c /\ Permutation [a; b; c] [c; a; b] /\
  is_ok (find_assembly_order [a; b; c]) = true /\ is_ok (find_assembly_order [c; a; b]) = true /\
  is_ok (find_assembly_order [a; b]) = false /\ is_ok (find_assembly_order [b; a]) = false.
Proof.
  eexists _, _, _. repeat (split; [vm_compute; reflexivity|]). split; [|vm_compute; repeat split].
  apply Permutation_sym. eapply perm_trans; [apply perm_swap|]. apply perm_skip. apply perm_swap.
Qed.
Print Assumptions C30_permutation.
