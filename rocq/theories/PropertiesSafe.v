(** Properties C39 (undefined behaviour) and C20 (termination) of whole programs. *)
From Verif Require Import Base ModelExpr ModelMnemonic ModelState ModelInstr ModelToken ModelStatement ModelParse ModelMap
  ModelModule ModelAssembler SpecArith SpecText SpecScope SpecSafe SafeAssembleProofs CalmProofs.
Open Scope string_scope.
Open Scope list_scope.
Open Scope Z_scope.

(** ** C39.  The full claim would be

       forall files sk fuel ws u, returns sk -> assemble fuel sk files <> (ws, UB u).

    It is false (see the refutations below).  What is proved instead: undefined behaviour has
    one of the causes listed in SpecSafe.v, each of which can be seen in the source text; so
    a program without them never has any. *)
Theorem C39_causes : forall files sk fuel ws u, returns sk -> assemble fuel sk files = (ws, UB u) -> ub_cause files u.
Proof. exact assemble_causes. Qed.
(** No null pointer is ever used. *)
Theorem C39_never_null : forall files sk fuel ws, returns sk -> assemble fuel sk files <> (ws, UB UB_null).
Proof. intros files sk fuel ws R A. exact (cause_not_null _ (assemble_causes _ _ _ _ _ R A)). Qed.
(** Programs that do no arithmetic, write no number above 2^24, and whose .entry directives
    all give both register widths have no undefined behaviour at all. *)
Theorem C39_calm : forall files sk fuel ws u, returns sk -> calm files -> ~ leaves_m files -> ~ leaves_x files ->
  assemble fuel sk files <> (ws, UB u).
Proof. exact calm_assemble. Qed.
(** Such a program, with an error in it (so it is not only successes that are harmless). *)
Definition quiet : list string :=
  [".module m"; ".org $8000"; ".entry m8x16"; "start: LDA #$12"; "PHA"; "LDX #>start"; "PLA"; "BNE start"; "JMP nowhere"].
Lemma quiet_calm : calm [quiet] /\ ~ leaves_m [quiet] /\ ~ leaves_x [quiet].
Proof.
  assert (K : forall ss, reads quiet ss -> forallb (fun p => match snd p with
      | SDir d => negb (dir_eqb (d_name d) D_entry) || negb (bit_eqb (fl_m (d_flags d)) B_unknown) && negb (bit_eqb (fl_x (d_flags d)) B_unknown)
      | _ => true end) ss = true).
  { intros ss (ess & F & ->). unfold quiet in F.
    repeat match goal with H : Forall2 _ _ _ |- _ => inversion H; clear H; subst end.
    repeat match goal with H : exists ts, _ /\ _ |- _ => destruct H as (? & ? & ?) end.
    repeat match goal with H : tokenize _ = Ok _ |- _ => vm_compute in H; injection H as <- end.
    repeat match goal with H : parse _ = Ok _ |- _ => vm_compute in H; injection H as <- end.
    vm_compute. reflexivity. }
  split; [|split].
  - intros file line ts [<-|[]] L T. unfold quiet in L. repeat (destruct L as [<-|L]); [..|destruct L];
      vm_compute in T; injection T as <-;
      repeat (constructor; [try exact I; try (vm_compute; intuition discriminate); cbn; intuition discriminate|]); constructor.
  - intros (d & (file & src & labels & [<-|[]] & R & H) & D & M). apply K in R. rewrite forallb_forall in R.
    specialize (R _ H). cbn in R. rewrite D, M in R. discriminate R.
  - intros (d & (file & src & labels & [<-|[]] & R & H) & D & M). apply K in R. rewrite forallb_forall in R.
    specialize (R _ H). cbn in R. rewrite D, M in R. rewrite andb_false_r in R. discriminate R.
Qed.
Example C39_calm_case : calm [quiet] /\ ~ leaves_m [quiet] /\ ~ leaves_x [quiet] /\
  snd (assemble 50 (fun _ _ => Ok tt) [quiet]) = Err E_undefined.
Proof. split; [apply quiet_calm|split; [apply quiet_calm|split; [apply quiet_calm|vm_compute; reflexivity]]]. Qed.

(** Witnesses: each kind of cause does happen. *)
Definition outcome (file : list string) : option ub :=
  match assemble 50 (fun _ _ => Ok tt) [file] with (_, UB u) => Some u | _ => None end.
(** While parsing; while assembling; while stepping over a block move. *)
Theorem C39_overflow_refuted :
  outcome [".org $8000"; ".entry m8x8"; "REP #2147483647 + 1"; "RTS"] = Some UB_overflow /\
  outcome ["big: .equ 2147483647"; "more: .equ big + 1"] = Some UB_overflow /\
  outcome [".org $8000"; ".entry m16x16"; "LDX #$0000"; "MVN #$80*$80*$80*$80*$04-$01+$80*$80*$80*$80*$04, #$00"; "RTS"]
    = Some UB_overflow.
Proof. split; [|split]; vm_compute; reflexivity. Qed.
(** The assertion of Address::Address: any negative constant, or a negative origin; pulling a
    register that was pushed with a width nobody stated. *)
Theorem C39_assertion_refuted :
  outcome ["neg: .equ -1"] = Some UB_assert /\ outcome [".org -1"] = Some UB_assert /\
  outcome [".org $8000"; ".entry native"; "PHA"; "PLA"; "RTS"] = Some UB_assert.
Proof. split; [|split]; vm_compute; reflexivity. Qed.
(** Reading the end of an empty container: pulling a register of unknown width from an empty
    stack. *)
Theorem C39_container_refuted : outcome [".org $8000"; ".entry native"; "PLA"; "RTS"] = Some UB_oob.
Proof. vm_compute. reflexivity. Qed.

(** ** C20 for programs.  Assembling ends, whatever the files. *)
Theorem C20_program : forall sk files, returns sk ->
  exists N, forall fuel, (N <= fuel)%nat -> snd (assemble fuel sk files) <> OutOfFuel.
Proof. exact assemble_ends. Qed.
(** And a larger bound changes neither the result nor what was written. *)
Theorem C20_program_bound : forall fuel fuel' sk files, (fuel <= fuel')%nat ->
  snd (assemble fuel sk files) <> OutOfFuel -> assemble fuel' sk files = assemble fuel sk files.
Proof. exact assemble_more. Qed.
Example C20_program_case : returns (fun _ _ => Ok tt) /\
  snd (assemble 2 (fun _ _ => Ok tt) [quiet]) = OutOfFuel /\ snd (assemble 50 (fun _ _ => Ok tt) [quiet]) = Err E_undefined.
Proof. split; [intros ws w; left; reflexivity|split; vm_compute; reflexivity]. Qed.

Print Assumptions C39_causes.
Print Assumptions C39_never_null.
Print Assumptions C39_calm.
Print Assumptions C39_overflow_refuted.
Print Assumptions C39_assertion_refuted.
Print Assumptions C39_container_refuted.
Print Assumptions C20_program.
Print Assumptions C20_program_bound.
