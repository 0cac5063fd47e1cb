(** The project's own harness for its whole-program tests.  Transcribes test/test_sink.cc,
    test/test_sink.h and test/test_assembly.cc. *)
From Verif Require Import Base ModelNumeric ModelAddress ModelMap ModelFile ModelModule ModelAssembler.
Open Scope list_scope.
Open Scope Z_scope.

(** test/test_sink.h:30: received_, a map from address to byte. *)
Definition received := omap Z.

(** test/test_sink.cc:5-16: TestSink::Write, from byte [i] on. *)
Fixpoint receive (m : received) (a i : Z) (data : list Z) : res received :=
  match data with
  | [] => Ok m
  | b :: data' =>
      let target := add_wrapped a i in
      if om_mem target m then Err E_sink else receive (om_set target b m) a (i + 1) data'
  end.

(** received_ after the writes [ws], all of them accepted. *)
Fixpoint receive_all (m : received) (ws : list write) : res received :=
  match ws with
  | [] => Ok m
  | w :: ws' => let* m := receive m (fst w) 0 (snd w) in receive_all m ws'
  end.

(** TestSink as an OutputSink: its state is what the accepted writes have left in received_.
    A refused write may leave some of its bytes there; nothing is written or checked after it. *)
Definition test_sink : sink := fun ws w =>
  let* m := receive_all [] ws in
  let* _ := receive m (fst w) 0 (snd w) in Ok tt.

(** std::map::erase of the element with key [k]. *)
Fixpoint om_erase {A} (k : Z) (m : omap A) : omap A :=
  match m with
  | [] => []
  | (j, v) :: m' => if j =? k then m' else (j, v) :: om_erase k m'
  end.

(** test/test_sink.h:13-16: ExpectedBytes, location and bytes. *)
Definition expected := (Z * list Z)%type.

(** test/test_sink.cc:26-37: the inner loop, from byte [i] on.  The three messages of Check are
    all reported as [E_mismatch]. *)
Fixpoint check_bytes (m : received) (location i : Z) (bytes : list Z) : res received :=
  match bytes with
  | [] => Ok m
  | b :: bytes' =>
      let target := add_wrapped location i in
      match om_find target m with
      | None => Err E_mismatch
      | Some c => if negb (c =? b) then Err E_mismatch
                  else check_bytes (om_erase target m) location (i + 1) bytes'
      end
  end.

(** test/test_sink.cc:22-38: the outer loop.  entry.location is an int. *)
Fixpoint check_entries (m : received) (es : list expected) : res received :=
  match es with
  | [] => Ok m
  | e :: es' =>
      let* location := mk_address (fst e) in
      let* m := check_bytes m location 0 (snd e) in
      check_entries m es'
  end.

(** test/test_sink.cc:18-45: TestSink::Check. *)
Definition check (m : received) (es : list expected) : res unit :=
  let* m := check_entries m es in
  match m with [] => Ok tt | _ :: _ => Err E_mismatch end.

(** test/test_assembly.cc:12-32: ExpectAssembly.  Ok true: no failure is added; Ok false:
    ADD_FAILURE.  The names of the fake files are left out, as in [assemble]. *)
Definition expect_assembly (fuel : nat) (contents : list string) (es : list expected) : res bool :=
  match assemble fuel test_sink (map fake_file contents) with
  | (_, Err _) => Ok false
  | (_, UB u) => UB u
  | (_, OutOfFuel) => OutOfFuel
  | (ws, Ok _) =>
      let* m := receive_all [] ws in
      match check m es with
      | Err _ => Ok false
      | UB u => UB u
      | OutOfFuel => OutOfFuel
      | Ok _ => Ok true
      end
  end.

(** test/test_assembly.cc:34-51: ExpectAssemblyError.  Errors are kinds here, so whether the
    message of an error contains the text looked for is the parameter [says]. *)
Definition expect_error (fuel : nat) (says : err -> bool) (contents : list string) : res bool :=
  match assemble fuel test_sink (map fake_file contents) with
  | (_, Ok _) => Ok false
  | (_, Err e) => Ok (says e)
  | (_, UB u) => UB u
  | (_, OutOfFuel) => OutOfFuel
  end.
