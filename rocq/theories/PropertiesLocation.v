(** C53: the assembler's errors carry the file and the line they are about. *)
From Verif Require Import Base ModelMnemonic ModelExpr ModelState ModelInstr ModelStatement ModelParse ModelToken
  ModelModule ModelAssembler ModelLocation SpecScope SpecInstr SpecLayout SpecAssemble SpecFlow SpecState SpecLocation
  BaseProofs MapProofs LoadProofs ScopeProofs LocationProofs LocatedProofs DisInvProofs TokenProofs ListTextProofs.
Open Scope list_scope.
Open Scope Z_scope.

(** Locations change nothing else: the located assembler is the assembler of C15-C30. *)
Theorem C53_same_results : forall fuel sk files,
  werase (lassemble fuel sk files) = assemble fuel (erase_sink sk) (map snd files).
Proof. exact erased. Qed.

(** Every error is about the line it is reported at; the five kinds of error without a line
    and the one with a wrong line are those of [reported]. *)
Theorem C53_errors_located : forall fuel sk files ws e l, Forall (fun f => fst f <> ""%string) files ->
  lassemble fuel sk files = (ws, LErr e l) -> reported sk files ws e l.
Proof. exact errors_located. Qed.

Definition any_sink : lsink := fun _ _ => LOk tt.
Definition full_sink : lsink := fun _ w => if fst w <? 32770 then LOk tt else LErr E_sink (Loc "image" (AtLine 7)).
Definition prefix : list string := [".org 0x8000"; "; the entry"; "start: .entry m8x8"; "  lda #1"; ""]%string.
Definition report (sk : lsink) (files : list (string * list string)) : option (err * string) :=
  match snd (lassemble 100 sk files) with LErr e l => Some (e, loc_to_string l) | _ => None end.

Example C53_cases :
  map (fun ending => report any_sink [("lib.asm", [".org 0x9000"; "  .db 1"]); ("main.asm", List.app prefix ending)])%string
    [[ "  rts" ]; [ "  lda (3"; "rts" ]; [ "  lda 3, s"; "  lda a" ]; [ "  bra nowhere" ]; [ "  lda nowhere"; "  rts" ];
     [ "  nop" ]; [ "  jsr start noreturn noreturn"; "  rts" ]; [ "  rts"; "  nop" ]; [ "  rts"; "c .equ nowhere"; "  .db 1" ];
     [ "  rts"; ".org 0x8001"; "  .db 1" ]; [ "  rts"; ".org 0x9000"; "  .db 1" ]; [ "  .begin"; "  .begin"; "  .end" ]; [ "start: rts" ];
     [ "  rts yields m16" ]]%string
  = [None; Some (E_parse, "main.asm:6"); Some (E_no_mode, "main.asm:7"); Some (E_no_target, "main.asm:6"); Some (E_undefined, "main.asm:6");
     Some (E_past_end, ""); Some (E_logic, ""); Some (E_unreached, "main.asm:7"); Some (E_cycle, "");
     Some (E_overlap, "main.asm:8"); Some (E_overlap, ""); Some (E_scope, "main.asm:6"); Some (E_duplicate, "main.asm:6");
     Some (E_convention, "")]%string.
Proof. vm_compute. reflexivity. Qed.
(* the location that a sink gives is replaced by that of the statement *)
Example C53_sink_case : report full_sink [("main.asm", List.app prefix ["  rts"])]%string = Some (E_sink, "main.asm:6"%string).
Proof. vm_compute. reflexivity. Qed.
Print Assumptions C53_same_results.
Print Assumptions C53_errors_located.

(** A name exported by two files is reported at the number of a statement in place of a
    line: here at the .org of line 1 in place of the label of line 2. *)
Definition twice : list string := [".org 0x8000"; "foo: .db 1"]%string.
Theorem C53_duplicate_refuted : ~ forall fuel sk files ws l, Forall (fun f => fst f <> ""%string) files ->
  Forall (fun f => exists m, load_asm_file (snd f) = Ok m) files ->
  lassemble fuel sk files = (ws, LErr E_duplicate l) ->
  exists path file src n name k, In (path, file) files /\ reads file src /\ l = line_of path n /\ stands file k n /\ defined src None name k.
Proof.
  intros H. specialize (H 9%nat any_sink [("a.asm", twice); ("b.asm", twice)]%string [] (line_of "a.asm" 1)).
  assert (LD : exists m, load_asm_file twice = Ok m) by (eexists; vm_compute; reflexivity).
  destruct H as (path & file & src & n & name & k & I & R & E & S & D).
  - repeat constructor; discriminate.
  - repeat constructor; exact LD.
  - vm_compute. reflexivity.
  - injection E as <- <-. assert (file = twice) as ->.
    { destruct I as [I|[I|[]]]; congruence. }
    destruct S as (before & text & after & ess & es & EF & N & B & C & K). destruct before as [|b before]; [|cbn [List.length] in N; lia].
    inversion B; subst ess. cbn [app] in EF. injection EF as <- _. destruct C as (ts & T & P). vm_compute in T. injection T as <-. vm_compute in P. injection P as <-.
    change (0 <= k < 1) in K. assert (k = 0) as -> by lia.
    apply defined_dlist in D. destruct R as (ess & F & ->). inversion F as [|? es1 ? ? (ts1 & T1 & P1) F1]; subst. inversion F1 as [|? es2 ? ? (ts2 & T2 & P2) F2]; subst.
    inversion F2; subst. vm_compute in T1, T2. injection T1 as <-. injection T2 as <-. vm_compute in P1, P2. injection P1 as <-. injection P2 as <-.
    vm_compute in D. destruct D as [D|[]]. discriminate D.
Qed.
Print Assumptions C53_duplicate_refuted.

(** What is printed for an error determines its line and its message. *)
Theorem C53_printed : forall path n n' m m', path <> ""%string -> 0 <= n < 2 ^ 31 -> 0 <= n' < 2 ^ 31 ->
  error_to_string (line_of path n) m = error_to_string (line_of path n') m' -> n = n' /\ m = m'.
Proof.
  intros path n n' m m' P N N' H. unfold error_to_string, loc_to_string, line_of in H. cbn [loc_path loc_offset] in H.
  destruct (String.eqb_spec path ""); [contradiction|].
  assert (NE : forall s, String.eqb (path ++ ":" ++ s)%string ""%string = false).
  { intros s. apply String.eqb_neq. destruct path; [contradiction|discriminate]. }
  rewrite !NE in H. rewrite !TokenProofs.sapp_assoc in H. apply append_inj_l in H. cbn [append] in H. injection H as H.
  assert (DI : forall k, 0 <= k -> str_all is_ident_char (dec_string k) = true).
  { intros k K. unfold dec_string. destruct (Z.ltb_spec k 0); [lia|]. apply digits_ident. exact K. }
  assert (K : dec_string n = dec_string n' /\ m = m').
  { generalize (DI n (proj1 N)) (DI n' (proj1 N')) H. generalize (dec_string n) (dec_string n'). clear. intros a. induction a as [|c a IH]; intros [|d b] A B H; cbn in *.
    - injection H as <-. auto.
    - injection H as <- _. discriminate B.
    - injection H as -> _. discriminate A.
    - injection H as -> H. apply andb_true_iff in A, B. destruct (IH b (proj2 A) (proj2 B) H) as [-> ->]. auto. }
  destruct K as [K ->]. split; [|reflexivity]. apply dec_string_inj; assumption.
Qed.
Example C53_printed_case : error_to_string (line_of "main.asm" 12) "division by zero" = "main.asm:12: division by zero"%string.
Proof. reflexivity. Qed.
Print Assumptions C53_printed.
