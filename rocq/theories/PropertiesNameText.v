(** Properties of the messages about names in expressions. *)
From Verif Require Import BaseProofs ModelNumeric ModelAddress ModelMnemonic ModelExpr ModelAMode ModelOpcode ModelState ModelInstr ModelToken ModelStatement ModelParse ModelMap ModelModule ModelAssembler ModelLocation ModelRomText ModelParseText ModelFlagText ModelNameText
  SpecScope SpecLayout SpecAssemble SpecLocation SpecParseText SpecNameText NameTextProofs NameProgramProofs.
Open Scope string_scope.
Open Scope list_scope.
Open Scope Z_scope.

(** C77.  Evaluation with messages is the evaluation of the other properties. *)
Theorem C77_same : forall m scopes paths ms names e,
  SpecParseText.bare (t_eval (t_module_ctx m scopes (t_assembler_ctx paths ms names)) e) = eval (module_ctx m scopes (assembler_ctx ms names)) e /\
  SpecParseText.bare (t_eval t_null_ctx e) = eval null_ctx e.
Proof.
  intros m scopes paths ms names e. split; apply bare_eval; [|intros id; reflexivity]. apply bare_module_ctx, bare_assembler_ctx.
Qed.
(** A module named main, with a top name `top` of value 7 on line 0, a top name `late` without a value on line 1, and a block on line 2 with a local `in` of
    value 9 on line 3. *)
Definition case_line (v : option Z) (locals : list (string * Z)) : line := Line (SInstr (Instr M_nop S_none A_imp None None RC_default)) [] false default_estate v [] locals.
Definition case_module : module :=
  MkModule "main" [case_line (Some 7) []; case_line None []; case_line None [("in", 3)]; case_line (Some 9) []] [] [("top", 0); ("late", 1)] [] [] [] [].
Definition case_name (m : option string) (n : string) : expr := EId (FullId m n) T_word.
Definition case_said (scopes : list Z) (e : expr) : pres Z :=
  t_eval (t_module_ctx case_module scopes (t_assembler_ctx (fun _ => "main.asm") [case_module] [(FullId (Some "main") "top", 0); (FullId (Some "main") "late", 0)])) e.
Example C77_same_case : map (fun e => SpecParseText.bare (case_said [2] e))
    [case_name None "in"; case_name (Some "main") "in"; case_name (Some "main") "top"; case_name None "late"; EBin Op_plus (case_name None "in") (case_name None "top")]
  = [Ok 9; Err E_undefined; Ok 7; Err E_before_def; Ok 16] /\ SpecParseText.bare (t_eval t_null_ctx (case_name None "top")) = Err E_null_lookup.
Proof. vm_compute. split; reflexivity. Qed.
Print Assumptions C77_same.

(** C77.  A message about an expression is about its first name, from left to right, that has no value: every name before it has one.
    It says that the name has no definition only if it has none, in the module or outside, and that it is accessed before its
    definition only if it has a line in the module; otherwise it is about a division by zero. *)
Theorem C77_names : forall m scopes paths ms names e er, let c := t_module_ctx m scopes (t_assembler_ctx paths ms names) in t_eval c e = PErr er ->
  (re_kind er = E_div_zero /\ re_text er = "division by zero") \/
  exists before id after, ids e = before ++ id :: after /\ Forall (fun x => exists v, c x = POk v) before /\ c id = PErr er /\
    ((re_kind er = E_undefined /\ re_text er = ("No definition for '" ++ fullid_to_string (outside id) ++ "' found")%string /\
      ~ has_line m scopes id /\ ~ In (outside id) (map fst names)) \/
     (re_kind er = E_before_def /\ re_text er = ("Value '" ++ fullid_to_string id ++ "' accessed before definition")%string /\
      has_line m scopes id /\ exists i l, znth (md_lines m) i = Some l /\ ln_value l = None) \/
     (re_kind er = E_logic /\ In (outside id) (map fst names))).
Proof. exact eval_says. Qed.
Example C77_names_case : map (fun e => match case_said [2] e with PErr er => re_text er | _ => "" end)
    [EBin Op_plus (case_name None "in") (EBin Op_plus (case_name None "foo") (case_name None "bar")); case_name (Some "main") "in"; EBin Op_plus (case_name None "late") (case_name None "foo");
     EBin Op_div (case_name None "top") (ELit 0 T_unknown); case_name None "in"]
  = ["No definition for '::foo' found"; "No definition for 'main::in' found"; "Value 'late' accessed before definition"; "division by zero"; ""].
Proof. vm_compute. reflexivity. Qed.
Print Assumptions C77_names.

(** C77.  An expression whose names all have values is refused for no other reason than a division by zero. *)
Theorem C77_known : forall c e, Forall (fun id => exists v, c id = POk v) (ids e) -> forall er, t_eval c e = PErr er -> re_kind er = E_div_zero /\ re_text er = "division by zero".
Proof.
  intros c e F er H. destruct (eval_first _ _ _ H) as [D|(before & id & after & E & _ & X)]; [exact D|]. rewrite E in F. apply Forall_app in F. destruct F as [_ F].
  inversion F as [|? ? [v V] _]. congruence.
Qed.
Example C77_known_case : case_said [2] (EBin Op_div (case_name None "in") (EBin Op_minus (case_name None "top") (ELit 7 T_unknown))) = err_here E_div_zero "division by zero".
Proof. vm_compute. reflexivity. Qed.
Print Assumptions C77_known.

(** C77.  A program rejected for a name: what is printed is the name of a file, the number of a line with a statement in which there is a name, and the
    message. *)
Theorem C77_program : forall fuel sk files ws e l, Forall (fun f => fst f <> "") files ->
  (forall ws w k p, sk ws w = LErr k p -> ~ In k [E_undefined; E_before_def; E_null_lookup]) ->
  lassemble fuel sk files = (ws, LErr e l) -> In e [E_undefined; E_before_def; E_null_lookup] ->
  exists path file src n before labels s after, In (path, file) files /\ reads file src /\ src = before ++ (labels, s) :: after /\
    stands file (Z.of_nat (List.length before)) n /\ stmt_ids s <> [] /\
    forall text, error_to_string l text = (path ++ ":" ++ dec_string n ++ ": " ++ text)%string.
Proof.
  intros fuel sk files ws e l NE SK H I. apply (names_blamed fuel sk files ws e l NE); [|exact H|].
  - intros ws0 w k p X. apply SK in X. destruct k; try reflexivity; destruct X; cbn; tauto.
  - destruct I as [<-|[<-|[<-|[]]]]; reflexivity.
Qed.
Example C77_program_case :
  let said file := match lassemble 9 (fun _ _ => LOk tt) [("main.asm", file)] with (_, LErr e l) => Some (e, error_to_string l "") | _ => None end in
  map said [[" .org 0x8000"; "start: .entry m8x8"; " lda other::foo"; " rts"]; [" .org 0x8000"; "start: .entry m8x8"; " lda foo"; " rts"];
            ["foo: .equ bar"; "bar: .equ 1"; " .org 0x8000"; "start: .entry m8x8"; " rts"]; [" .org 0x8000"; "start: .entry m8x8"; " lda start"; " rts"]]
  = [Some (E_undefined, "main.asm:3: "); Some (E_undefined, "main.asm:3: "); Some (E_before_def, "main.asm:1: "); None].
Proof. vm_compute. reflexivity. Qed.
Print Assumptions C77_program.
