(** Properties of the message about bytes written twice in a module. *)
From Verif Require Import BaseProofs ModelNumeric ModelAddress ModelMnemonic ModelExpr ModelAMode ModelOpcode
  ModelState ModelInstr ModelToken ModelStatement ModelParse ModelMap ModelRanges ModelModule ModelAssembler ModelTools ModelLocation ModelRomText ModelParseText ModelFlagText ModelClaimText
  SpecArith SpecRanges SpecLayout SpecAssemble SpecLocation SpecParseText ClaimTextProofs.
Open Scope string_scope.
Open Scope list_scope.
Open Scope Z_scope.

(** C80.  The claim with a message is that of the other properties. *)
Theorem C80_same : forall owned a size, SpecParseText.bare (t_claim owned a size) =
  match claim_bytes owned a size with Ok (true, owned') => Ok owned' | Ok (false, _) => Err E_overlap | Err e => Err e | UB u => UB u | OutOfFuel => OutOfFuel end.
Proof. intros owned a size. unfold t_claim. destruct (claim_bytes owned a size) as [[[] o]|e|u|]; reflexivity. Qed.
Example C80_same_case : t_claim [(0x8000, 0x8010)] 0x8010 4 = POk [(0x8000, 0x8014)].
Proof. vm_compute. reflexivity. Qed.
Print Assumptions C80_same.

(** C80.  The message gives the address of the statement; some byte of the statement was written before, or the statement is longer than a bank.
    And whenever that is so, there is such a message. *)
Theorem C80_overlap : forall owned a size, canonical owned -> addr24 a ->
  (forall er, t_claim owned a size = PErr er -> re_kind er = E_overlap /\ re_text er = ("Second write to same address " ++ address_to_string a ++ " in module")%string) /\
  ((exists er, t_claim owned a size = PErr er) <-> 65536 < size \/ exists x, claimed a size x /\ covers owned x).
Proof. exact claim_says. Qed.
Example C80_overlap_case : t_claim [(0x8001, 0x8002)] 0x8000 2 = err_here E_overlap "Second write to same address $008000 in module".
Proof. vm_compute. reflexivity. Qed.
Print Assumptions C80_overlap.

(** C80.  The address in the message need not have been written before: here only $008001 is written twice. *)
Theorem C80_address_refuted : ~ forall fuel sk path file ws0 a b n, lassemble fuel sk [(path, file)] = (ws0 ++ [(a, b)], LErr E_overlap (line_of path n)) -> In a (flat_map touched ws0).
Proof.
  intros H. specialize (H 9%nat (fun _ _ => LOk tt) "main.asm" [" .org 0x8001"; " .db 1"; " .org 0x8000"; " .dw 0x1234"] [(0x8001, [1])] 0x8000 [0x34; 0x12] 4).
  assert (X : In 0x8000 (flat_map touched [(0x8001, [1])])) by (apply H; vm_compute; reflexivity). vm_compute in X. destruct X as [X|[]]. discriminate X.
Qed.
Print Assumptions C80_address_refuted.
