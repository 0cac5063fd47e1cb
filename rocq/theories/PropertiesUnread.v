(** What is reported for a program with a line that cannot be read. *)
From Verif Require Import BaseProofs ModelNumeric ModelMnemonic ModelExpr ModelAMode ModelOpcode
  ModelState ModelInstr ModelToken ModelStatement ModelParse ModelAddress ModelMap ModelModule ModelAssembler ModelRom ModelTools ModelLocation ModelRomText
  ModelParseText SpecLocation PlaceProofs.
Open Scope string_scope.
Open Scope list_scope.
Open Scope Z_scope.

(** C75.  A program rejected with an error that only the reading of a line gives: nothing is written, there is a line of a file,
    all lines before it in that file can be read, the message is the one for that line alone, and what is printed is the name
    of the file, the number of the line and the message.  Only the message about a return convention comes without a place. *)
Theorem C75_program : forall fuel sk files ws e l, Forall (fun f => fst f <> "") files ->
  let of_reading k := In k [E_token; E_parse; E_no_mode; E_suffix; E_convention] in
  (forall ws w k p, sk ws w = LErr k p -> ~ of_reading k) ->
  lassemble fuel sk files = (ws, LErr e l) -> of_reading e ->
  ws = [] /\ exists path before s after er, In (path, before ++ s :: after) files /\ Forall (fun t => exists es, contains t es) before /\
    let n := Z.of_nat (List.length before) + 1 in
    t_line (line_of path n) s = PErr er /\ re_kind er = e /\ re_loc er = l /\
    (e <> E_convention -> error_to_string l (re_text er) = (path ++ ":" ++ dec_string n ++ ": " ++ re_text er)%string) /\
    (e = E_convention -> error_to_string l (re_text er) = re_text er).
Proof.
  intros fuel sk files ws e l NE of_reading SK H R. destruct (unreadable_line fuel sk files ws e l NE SK H R) as (W & path & before & s & after & er & I & F & T & K & L & X).
  split; [exact W|]. exists path, before, s, after, er. split; [exact I|]. split; [exact F|]. intros n. split; [exact T|]. split; [exact K|]. split; [exact L|].
  destruct R as [<-|[<-|[<-|[<-|[<-|[]]]]]]; (split; intros Q; try discriminate Q; try exact X; destruct (Q eq_refl)).
Qed.
(* a second file whose third line is wrong, in each of the five ways *)
Example C75_program_case :
  let said line := match lassemble 9 (fun _ _ => LOk tt) [("a.asm", [" .org 0x8000"; " .db 1"]); ("b.asm", [" .module b"; "; text"; line; " lda ("])] with
    | (ws, LErr e l) => Some (ws, e, match t_line l line with PErr er => error_to_string l (re_text er) | _ => "" end) | _ => None end in
  map said [" lda {3"; " lda $g"; " sta #1"; " clc.b"; " nop noreturn"]
  = [Some ([], E_parse, "b.asm:3: Expected expression, found symbol `{`"); Some ([], E_token, "b.asm:3: Unexpected character '$' in input");
     Some ([], E_no_mode, "b.asm:3: sta does not take an immediate value as an argument"); Some ([], E_suffix, "b.asm:3: Instruction `clc` does not support a length suffix");
     Some ([], E_convention, "return calling convention not supported on instruction nop")].
Proof. vm_compute. reflexivity. Qed.
Print Assumptions C75_program.
