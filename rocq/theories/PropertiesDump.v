(** Properties of util/quick_dump.cc. *)
From Verif Require Import Base ModelAddress ModelModule ModelAssembler ModelRom SpecArith SpecInstr SpecRom SpecSink SpecDump DumpProofs ModelTools.
Open Scope string_scope.
Open Scope list_scope.
Open Scope Z_scope.

(** ** C49.  Dumping and assembling: what quick_dump prints of up to a bank assembles, to writes
    that follow one another from the start address, of the bytes that the image has there; so
    quick_assemble finds no difference. *)
Theorem C49_dump : forall r start count stride per_line lines fuel msg,
  addr24 start -> bytes_ok (rom_data r) -> dump_size count stride <= 2 ^ 16 ->
  quick_dump (rom_read r) start count stride per_line = Ok lines ->
  exists ws asm, assemble fuel takes_all [lines] = (ws, Ok asm) /\ in_a_row start ws /\
    Z.of_nat (List.length (concat (map snd ws))) = dump_size count stride /\
    (forall k b, nth_byte (concat (map snd ws)) k = Some b -> in_rom r (same_bank_plus start k) b) /\
    quick_assemble fuel msg r true [lines] = Ok ["0 jump targets found"].
Proof. exact dump_assembles. Qed.
(** Three words, two on a line. *)
Definition seven : rom := Rom HiRom [0x11; 0x22; 0x33; 0x44; 0x55; 0x66; 0x77].
Example C49_dump_case :
  addr24 0xc00000 /\ bytes_ok (rom_data seven) /\ dump_size 3 2 = 6 /\
  quick_dump (rom_read seven) 0xc00000 3 2 2 = Ok [".org $c00000"; ".dw  $2211, $4433"; ".dw  $6655"] /\
  fst (assemble 0 takes_all [[".org $c00000"; ".dw  $2211, $4433"; ".dw  $6655"]])
    = [(0xc00000, [0x11; 0x22; 0x33; 0x44]); (0xc00004, [0x55; 0x66])].
Proof.
  split; [unfold addr24; lia|]. split; [unfold bytes_ok; repeat constructor; lia|].
  split; [reflexivity|]. split; [vm_compute; reflexivity|vm_compute; reflexivity].
Qed.
Print Assumptions C49_dump.

(** A longer dump runs into itself, and is refused. *)
Theorem C49_long : forall r start count stride per_line lines fuel,
  addr24 start -> bytes_ok (rom_data r) -> 2 ^ 16 < dump_size count stride ->
  quick_dump (rom_read r) start count stride per_line = Ok lines ->
  snd (assemble fuel takes_all [lines]) = Err E_overlap.
Proof. exact dump_too_long. Qed.
(** 65537 bytes of a bank of zeroes. *)
Example C49_long_case : 2 ^ 16 < dump_size 65537 1 /\
  exists lines, quick_dump (rom_read (Rom HiRom (repeat 0 (Z.to_nat 65536)))) 0xc00000 65537 1 16 = Ok lines.
Proof.
  split; [reflexivity|].
  destruct (dump_total (Rom HiRom (repeat 0 (Z.to_nat 65536))) 0xc00000 65537 1 16) as [[H _]|[_ H]]; [unfold addr24; lia|exact H|].
  exfalso. apply H. intros k K. apply zeroes_bank.
Qed.
Print Assumptions C49_long.

(** The dump succeeds exactly when the image has all the bytes.  Otherwise the program is
    terminated, as it takes the text of an error that is not there. *)
Theorem C49_total : forall r start count stride per_line, addr24 start ->
  (exists lines, quick_dump (rom_read r) start count stride per_line = Ok lines) /\
    (forall k, 0 <= k < dump_size count stride -> exists b, in_rom r (same_bank_plus start k) b) \/
  quick_dump (rom_read r) start count stride per_line = UB UB_assert /\
    ~ (forall k, 0 <= k < dump_size count stride -> exists b, in_rom r (same_bank_plus start k) b).
Proof. exact dump_total. Qed.
Example C49_total_case :
  quick_dump (rom_read seven) 0xc00000 3 2 8 = Ok [".org $c00000"; ".dw  $2211, $4433, $6655"] /\
  quick_dump (rom_read seven) 0xc00000 4 2 8 = UB UB_assert.
Proof. split; vm_compute; reflexivity. Qed.
Print Assumptions C49_total.
