(** C68: the project's harness for whole-program tests says what the test means to say. *)
From Coq Require Import Permutation.
From Verif Require Import Base ModelNumeric ModelMap ModelFile ModelModule ModelAssembler ModelHarness SpecSink SpecHarness HarnessProofs.
Open Scope string_scope.
Open Scope list_scope.
Open Scope Z_scope.

(** Newlines between the lines of a file. *)
Fixpoint text (lines : list string) : string :=
  match lines with [] => "" | l :: ls => String.append l (String (Ascii.ascii_of_nat 10) (text ls)) end.

(** Assembling into the sink of the tests succeeds exactly when assembling does, with the same
    writes: the sink's complaint about duplicate writes never concerns a program that is fine. *)
Theorem C68_sink : forall fuel files ws a, assemble fuel test_sink files = (ws, Ok a) <-> assemble fuel takes_all files = (ws, Ok a).
Proof. exact sink_same. Qed.
Print Assumptions C68_sink.

(** A test of the kind "these files give these bytes" passes if and only if the files assemble
    and the bytes written are, each at its address, exactly the bytes expected. *)
Theorem C68_expect : forall fuel contents es, Forall (fun e => - 2 ^ 31 <= fst e < 2 ^ 31) es ->
  (expect_assembly fuel contents es = Ok true <->
   exists ws a, assemble fuel takes_all (map fake_file contents) = (ws, Ok a) /\ in_memory es /\ Permutation (laid_out ws) (laid_out es)).
Proof. exact expect_passes. Qed.
Print Assumptions C68_expect.

(** If the files assemble, the test comes to a verdict, unless an expected address does not
    exist: then an assertion fails in the harness, if the test gets that far. *)
Theorem C68_verdict : forall fuel contents es ws a, Forall (fun e => - 2 ^ 31 <= fst e < 2 ^ 31) es ->
  assemble fuel takes_all (map fake_file contents) = (ws, Ok a) ->
  match expect_assembly fuel contents es with
  | Ok true => in_memory es /\ Permutation (laid_out ws) (laid_out es)
  | Ok false => ~ Permutation (laid_out ws) (laid_out es)
  | UB u => u = UB_assert /\ ~ in_memory es
  | _ => False
  end.
Proof. exact expected_outcome. Qed.
Print Assumptions C68_verdict.

(** A test of the kind "assembling these files fails, and says so" passes if and only if
    assembling fails with a message of that kind before any byte is written twice, or a byte is
    written twice and the test is about the sink's message. *)
Theorem C68_error : forall fuel says contents ws r, assemble fuel takes_all (map fake_file contents) = (ws, r) ->
  (expect_error fuel says contents = Ok true <->
   (apart ws /\ exists e, r = Err e /\ says e = true) \/ (~ apart ws /\ says E_sink = true)).
Proof. exact expect_error_passes. Qed.
Print Assumptions C68_error.

(** The project's own tests: test/simple_tests.cc. *)
Definition simple : string := text [""; "      .org $008000"; "      .entry m8x8"; "      RTS"; "      "].
Definition unplaced : string := text [""; "      .entry m8x8"; "      RTS"; "      "].
Example C68_simple_case : expect_assembly 99 [simple] [(0x8000, [0x60])] = Ok true /\
  expect_assembly 99 [simple] [(0x8000, [0x61])] = Ok false /\
  expect_assembly 99 [simple] [(0x8000, [0x60; 0])] = Ok false /\
  expect_assembly 99 [simple] [] = Ok false /\
  expect_assembly 99 [simple] [(0x8000, [0x60]); (0x8000, [0x60])] = Ok false /\
  expect_assembly 99 [simple] [(-1, [])] = UB UB_assert /\
  expect_error 99 (fun e => match e with E_no_address => true | _ => false end) [unplaced] = Ok true /\
  expect_error 99 (fun e => match e with E_no_address => true | _ => false end) [simple] = Ok false.
Proof. vm_compute. repeat split. Qed.
(** test/cross_module_dependencies_test.cc; the files in all 24 orders. *)
Fixpoint inserted {A} (x : A) (l : list A) : list (list A) :=
  match l with [] => [[x]] | y :: l' => (x :: l) :: map (cons y) (inserted x l') end.
Fixpoint orders {A} (l : list A) : list (list A) :=
  match l with [] => [[]] | x :: l' => flat_map (inserted x) (orders l') end.
Definition named : list string :=
  [text [".module M1"; "v1 .equ 1"]; text [".module M2"; "v2 .equ M1::v1 + 1"];
   text [".module M3"; "v3 .equ M2::v2 + 1"; "v4 .equ M1::v1 + 3"]; text [".org $8000"; ".db <M1::v1, <M2::v2, <M3::v3, <M3::v4"]].
Definition anonymous : list string :=
  [text ["v1 .equ 1"]; text ["v2 .equ v1 + 1"]; text ["v3 .equ v2 + 1"; "v4 .equ v1 + 3"]; text [".org $8000"; ".db <v1, <v2, <v3, <v4"]].
Definition cyclic : list string := [text ["v1 .equ v2"]; text ["v2 .equ v1"]].
Definition passes (r : res bool) : bool := match r with Ok true => true | _ => false end.
Example C68_modules_case : List.length (orders named) = 24%nat /\
  forallb (fun fs => passes (expect_assembly 99 fs [(0x8000, [1; 2; 3; 4])])) (orders named) = true /\
  forallb (fun fs => passes (expect_assembly 99 fs [(0x8000, [1; 2; 3; 4])])) (orders anonymous) = true /\
  forallb (fun fs => passes (expect_assembly 99 fs [(0x8002, [3; 4]); (0x8000, [1; 2])])) (orders anonymous) = true /\
  expect_error 99 (fun e => match e with E_cycle => true | _ => false end) cyclic = Ok true.
Proof. vm_compute. repeat split. Qed.

(** What fails in the harness is not always what fails in the assembler: the sink complains
    about a byte written twice before the assembler's own check does, so that check cannot be
    tested with it. *)
Definition doubled : string := text ["  .org $8000"; "  .db 1, 2"; "  .org $8001"; "  .db 3"].
Theorem C68_masked_refuted : ~ forall fuel says contents ws e, assemble fuel takes_all (map fake_file contents) = (ws, Err e) ->
  says e = true -> expect_error fuel says contents = Ok true.
Proof.
  intros H. specialize (H 99%nat (fun e => match e with E_overlap => true | _ => false end) [doubled]).
  assert (X : assemble 99 takes_all (map fake_file [doubled]) = ([(0x8000, [1; 2]); (0x8001, [3])], Err E_overlap)) by (vm_compute; reflexivity).
  specialize (H _ _ X eq_refl). vm_compute in H. discriminate H.
Qed.
Print Assumptions C68_masked_refuted.
