(** Properties of the messages about labels, modules and blocks. *)
From Verif Require Import BaseProofs ModelNumeric ModelAddress ModelMnemonic ModelExpr ModelAMode ModelOpcode ModelState ModelInstr ModelToken ModelStatement ModelParse ModelMap ModelModule ModelLocation ModelRomText
  ModelParseText ModelFlagText ModelLoadText SpecParseText SpecLoadText LoadTextProofs LoadFileProofs.
Open Scope string_scope.
Open Scope list_scope.
Open Scope Z_scope.

(** C79.  Loading with messages is the loading of the other properties. *)
Theorem C79_same : forall ld e, SpecParseText.bare (t_load_entity ld e) = load_entity ld e.
Proof. exact bare_entity. Qed.
(** The state after some lines of source, and what is said of the next. *)
Definition case_loader (file : list string) : loader := match load_lines (Loader empty_module [] []) file with Ok ld => ld | _ => Loader empty_module [] [] end.
Fixpoint case_entities (ld : loader) (es : list parsed) : pres loader :=
  match es with [] => POk ld | e :: es => match t_load_entity ld e with POk ld => case_entities ld es | r => r end end.
Definition case_next (file : list string) (text : string) : option (err * string) :=
  match tokenize text with
  | Ok ts => match parse ts with Ok es => match case_entities (case_loader file) es with PErr er => Some (re_kind er, re_text er) | _ => None end | _ => None end
  | _ => None
  end.
Example C79_same_case : map (fun c => let ld := case_loader (fst c) in
    match load_entities ld (match tokenize (snd c) with Ok ts => match parse ts with Ok es => es | _ => [] end | _ => [] end) with Err e => Some e | _ => None end)
    [(["foo: nop"], "foo: nop"); (["foo: nop"; " .begin"], "foo: nop"); (["foo: nop"], " .end")] = [Some E_duplicate; None; Some E_scope].
Proof. vm_compute. reflexivity. Qed.
Print Assumptions C79_same.

(** C79.  When a statement cannot stand after what was read before, the message is about a label of the statement that is already defined
    in the place where the label would be (at the top for exported labels and outside of blocks, else in the innermost open block), or is
    repeated before the statement; or the statement is a second .module; or it is an .end and no block is open. *)
Theorem C79_says : forall es ld e er, load_entities (Loader empty_module [] []) es = Ok ld -> t_load_entity ld e = PErr er ->
  exists s, e = PStmt s /\
   ((re_kind er = E_duplicate /\ exists before n x after, ld_pending ld = before ++ (n, x) :: after /\ re_text er = ("Duplicate label definition for '" ++ n ++ "'")%string /\
       In n (names_at (ld_mod ld) (ld_scopes ld) (at_top (ld_scopes ld) x) ++ labels_at (ld_scopes ld) (at_top (ld_scopes ld) x) before)) \/
    (exists d, s = SDir d /\ d_name d = D_module /\
       ((re_kind er = E_duplicate /\ re_text er = "Duplicate .MODULE directive" /\ md_name (ld_mod ld) <> "") \/
        (re_kind er = E_logic /\ simple_identifier_opt (d_arg d) = None))) \/
    (exists d, s = SDir d /\ d_name d = D_end /\ ld_scopes ld = [] /\ re_kind er = E_scope /\ re_text er = "Scope close without matching open")).
Proof. intros es ld e er L H. apply (entity_says ld e er H). apply (entities_blocks es (Loader empty_module [] []) ld); [intros i []|exact L]. Qed.
Example C79_says_case : map (fun c => case_next (fst c) (snd c))
    [(["foo: nop"], "foo: nop"); (["foo: nop"; " .begin"; "foo: nop"], "foo: nop"); (["foo: nop"; " .begin"], "foo: nop"); (["bar:"; "foo:"], "foo: nop"); ([" .module lib"], " .module lib");
     ([" .begin"; " .end"], " .end"); ([" .begin"], " .end")]
  = [Some (E_duplicate, "Duplicate label definition for 'foo'"); Some (E_duplicate, "Duplicate label definition for 'foo'"); None; Some (E_duplicate, "Duplicate label definition for 'foo'");
     Some (E_duplicate, "Duplicate .MODULE directive"); Some (E_scope, "Scope close without matching open"); None].
Proof. vm_compute. reflexivity. Qed.
Print Assumptions C79_says.

(** C79.  A file refused for a label, a module or a block: a block is open at its end, or there is a first line that goes wrong, and a label or a statement on
    it that cannot stand after all that was read before it, with the message of C79_says. *)
Theorem C79_file : forall file e, load_asm_file file = Err e -> In e [E_duplicate; E_scope] ->
  (e = E_scope /\ exists ld, load_lines (Loader empty_module [] []) file = Ok ld /\ ld_scopes ld <> []) \/
  exists before text after ess ts es1 ent es2 ld er, file = before ++ text :: after /\
    Forall2 (fun text es => exists ts, tokenize text = Ok ts /\ parse ts = Ok es) before ess /\ tokenize text = Ok ts /\ parse ts = Ok (es1 ++ ent :: es2) /\
    load_entities (Loader empty_module [] []) (concat ess ++ es1) = Ok ld /\ t_load_entity ld ent = PErr er /\ re_kind er = e.
Proof. intros file e H I. apply (file_fails file e H). destruct I as [<-|[<-|[]]]; reflexivity. Qed.
Example C79_file_case : map (fun file => match load_asm_file file with Err e => Some e | _ => None end)
    [["foo: nop"; " .begin"; "foo: nop"; "foo: nop"; " .end"]; ["foo: nop"; " .begin"; "foo: nop"; " .end"]; [" .begin"]; [" .end"]] = [Some E_duplicate; None; Some E_scope; Some E_scope].
Proof. vm_compute. reflexivity. Qed.
Print Assumptions C79_file.

(** C79.  Nothing that such a message could be about is accepted. *)
Theorem C79_accepted : forall es ld s ld', load_entities (Loader empty_module [] []) es = Ok ld -> load_entity ld (PStmt s) = Ok ld' ->
  (forall before n x after, ld_pending ld = before ++ (n, x) :: after ->
     ~ In n (names_at (ld_mod ld) (ld_scopes ld) (at_top (ld_scopes ld) x) ++ labels_at (ld_scopes ld) (at_top (ld_scopes ld) x) before)) /\
  (forall d, s = SDir d -> d_name d = D_module -> md_name (ld_mod ld) = "") /\ (forall d, s = SDir d -> d_name d = D_end -> ld_scopes ld <> []).
Proof. intros es ld s ld' L. apply entity_accepted. apply (entities_blocks es (Loader empty_module [] []) ld); [intros i []|exact L]. Qed.
Example C79_accepted_case : let ld := case_loader [" .module lib"; "foo: nop"; " .begin"; "bar:"; "foo:"] in
  (ld_pending ld, ld_scopes ld, names_at (ld_mod ld) (ld_scopes ld) false, names_at (ld_mod ld) (ld_scopes ld) true) = ([("bar", false); ("foo", false)], [2], [], ["foo"]) /\
  labels_at (ld_scopes ld) false (ld_pending ld) = ["bar"; "foo"] /\
  exists ld', load_entity ld (PStmt (SInstr (Instr M_nop S_none A_imp None None RC_default))) = Ok ld' /\ names_at (ld_mod ld') (ld_scopes ld') false = ["bar"; "foo"].
Proof. vm_compute. split; [reflexivity|]. split; [reflexivity|]. eexists. split; reflexivity. Qed.
Print Assumptions C79_accepted.
