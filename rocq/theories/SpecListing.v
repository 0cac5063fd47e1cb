(** What the listing made of a disassembly stands for. *)
From Verif Require Import Base ModelNumeric ModelExpr ModelMnemonic ModelAMode ModelState ModelInstr ModelMap ModelRom ModelDisasm ModelToken
  SpecArith SpecInstr SpecState SpecFlow SpecDisasm Spec65816.
Open Scope list_scope.
Open Scope Z_scope.

(** [src] has the bytes [l] at [pc] (and following, within the bank). *)
Inductive holds (src : source) : Z -> list Z -> Prop :=
| ho_read : forall pc l r, src pc 4 = Ok (l ++ r) -> holds src pc l
| ho_next : forall pc b l, holds src pc [b] -> holds src (same_bank_plus pc 1) l -> holds src pc (b :: l).

(** An operand shown as a label is read back as a name. *)
Definition as_read (i : instr) : instr :=
  Instr (i_mnem i) (i_suffix i) (i_mode i)
        (match i_arg1 i with Some (ELabel l _) => Some (EId (FullId None l) T_unknown) | e => e end)
        (i_arg2 i) (i_ret i).
(** Names stand for the addresses that they label. *)
Definition knows (ctx : lookup_ctx) (d : disassembler) : Prop :=
  forall a c, collected d a c -> di_label c <> ""%string -> ctx (FullId None (di_label c)) = Ok a.
(** The fusible pairs. *)
Definition pair_of (first second fused : mnemonic) : Prop :=
  (first = M_clc /\ second = M_adc /\ fused = PM_add) \/ (first = M_sec /\ second = M_sbc /\ fused = PM_sub).
(** No ADD or SUB (a fused pair) begins in the last byte of a bank. *)
Definition within_banks (d : disassembler) : Prop :=
  forall pc c, collected d pc c -> i_mnem (di_instr c) = PM_add \/ i_mnem (di_instr c) = PM_sub -> offset_of pc <> 2 ^ 16 - 1.
(** No convention says what the carry is on return, which has no spelling. *)
Definition readable_convention (r : retconv) : Prop := match r with RC_yields f => known_bit (fl_c f) = None | _ => True end.
Definition readable (rets : omap retconv) : Prop := forall t r, om_find t rets = Some r -> readable_convention r.
(** The spellings reserved for plus/minus labels, and their tokens; names followed by colons. *)
Definition sign_labels : list string := ["+"; "-"; "++"; "--"; "+++"; "---"]%string.
Definition sign_token (s : string) (t : token) : Prop := tokenize s = Ok [t; TEol].
Fixpoint colon_names (l : list string) : list token := match l with [] => [] | n :: l' => TIdent n :: TPunct (code ":") :: colon_names l' end.
