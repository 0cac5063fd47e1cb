(** The 65816 instruction set, written down independently of the source: for every opcode
    the mnemonic, the addressing form and from it the number of operand bytes the processor
    fetches.  Rows are opcodes $x0-$xf.  (PEI is listed with the direct-page form and PEA
    with a 16-bit immediate, the operands they are written with in nsasm.) *)
From Verif Require Import Base.
Open Scope string_scope.
Open Scope Z_scope.

Inductive form :=
| Imp            (* no operand *)
| Acc            (* accumulator *)
| Imm8           (* immediate, always one byte *)
| Imm16          (* immediate, always two bytes *)
| ImmM           (* immediate, width of the accumulator *)
| ImmX           (* immediate, width of the index registers *)
| Dp | DpX | DpY                 (* d    d,x    d,y *)
| Abs | AbsX | AbsY              (* a    a,x    a,y *)
| Lng | LngX                     (* al   al,x *)
| IDp | IDpX | IDpY              (* (d)  (d,x)  (d),y *)
| IAbs | IAbsX                   (* (a)  (a,x) *)
| ILDp | ILDpY | ILAbs           (* [d]  [d],y  [a] *)
| Sr | SrY                       (* d,s  (d,s),y *)
| Blk                            (* src,dest *)
| Rel8 | Rel16.                  (* branch displacement *)

(** Operand bytes fetched by the processor, given the m and x status bits (true = 8 bit). *)
Definition operand_bytes (fm : form) (m x : bool) : Z :=
  match fm with
  | Imp | Acc => 0
  | Imm8 | Dp | DpX | DpY | IDp | IDpX | IDpY | ILDp | ILDpY | Sr | SrY | Rel8 => 1
  | Imm16 | Abs | AbsX | AbsY | IAbs | IAbsX | ILAbs | Blk | Rel16 => 2
  | Lng | LngX => 3
  | ImmM => if m then 1 else 2
  | ImmX => if x then 1 else 2
  end.

Definition matrix : list (string * form) := [
(* 0 *) ("brk",Imm8);("ora",IDpX);("cop",Imm8);("ora",Sr);  ("tsb",Dp); ("ora",Dp); ("asl",Dp); ("ora",ILDp);
        ("php",Imp); ("ora",ImmM);("asl",Acc); ("phd",Imp); ("tsb",Abs);("ora",Abs);("asl",Abs);("ora",Lng);
(* 1 *) ("bpl",Rel8);("ora",IDpY);("ora",IDp); ("ora",SrY); ("trb",Dp); ("ora",DpX);("asl",DpX);("ora",ILDpY);
        ("clc",Imp); ("ora",AbsY);("inc",Acc); ("tcs",Imp); ("trb",Abs);("ora",AbsX);("asl",AbsX);("ora",LngX);
(* 2 *) ("jsr",Abs); ("and",IDpX);("jsl",Lng); ("and",Sr);  ("bit",Dp); ("and",Dp); ("rol",Dp); ("and",ILDp);
        ("plp",Imp); ("and",ImmM);("rol",Acc); ("pld",Imp); ("bit",Abs);("and",Abs);("rol",Abs);("and",Lng);
(* 3 *) ("bmi",Rel8);("and",IDpY);("and",IDp); ("and",SrY); ("bit",DpX);("and",DpX);("rol",DpX);("and",ILDpY);
        ("sec",Imp); ("and",AbsY);("dec",Acc); ("tsc",Imp); ("bit",AbsX);("and",AbsX);("rol",AbsX);("and",LngX);
(* 4 *) ("rti",Imp); ("eor",IDpX);("wdm",Imm8);("eor",Sr);  ("mvp",Blk);("eor",Dp); ("lsr",Dp); ("eor",ILDp);
        ("pha",Imp); ("eor",ImmM);("lsr",Acc); ("phk",Imp); ("jmp",Abs);("eor",Abs);("lsr",Abs);("eor",Lng);
(* 5 *) ("bvc",Rel8);("eor",IDpY);("eor",IDp); ("eor",SrY); ("mvn",Blk);("eor",DpX);("lsr",DpX);("eor",ILDpY);
        ("cli",Imp); ("eor",AbsY);("phy",Imp); ("tcd",Imp); ("jmp",Lng);("eor",AbsX);("lsr",AbsX);("eor",LngX);
(* 6 *) ("rts",Imp); ("adc",IDpX);("per",Rel16);("adc",Sr); ("stz",Dp); ("adc",Dp); ("ror",Dp); ("adc",ILDp);
        ("pla",Imp); ("adc",ImmM);("ror",Acc); ("rtl",Imp); ("jmp",IAbs);("adc",Abs);("ror",Abs);("adc",Lng);
(* 7 *) ("bvs",Rel8);("adc",IDpY);("adc",IDp); ("adc",SrY); ("stz",DpX);("adc",DpX);("ror",DpX);("adc",ILDpY);
        ("sei",Imp); ("adc",AbsY);("ply",Imp); ("tdc",Imp); ("jmp",IAbsX);("adc",AbsX);("ror",AbsX);("adc",LngX);
(* 8 *) ("bra",Rel8);("sta",IDpX);("brl",Rel16);("sta",Sr); ("sty",Dp); ("sta",Dp); ("stx",Dp); ("sta",ILDp);
        ("dey",Imp); ("bit",ImmM);("txa",Imp); ("phb",Imp); ("sty",Abs);("sta",Abs);("stx",Abs);("sta",Lng);
(* 9 *) ("bcc",Rel8);("sta",IDpY);("sta",IDp); ("sta",SrY); ("sty",DpX);("sta",DpX);("stx",DpY);("sta",ILDpY);
        ("tya",Imp); ("sta",AbsY);("txs",Imp); ("txy",Imp); ("stz",Abs);("sta",AbsX);("stz",AbsX);("sta",LngX);
(* a *) ("ldy",ImmX);("lda",IDpX);("ldx",ImmX);("lda",Sr);  ("ldy",Dp); ("lda",Dp); ("ldx",Dp); ("lda",ILDp);
        ("tay",Imp); ("lda",ImmM);("tax",Imp); ("plb",Imp); ("ldy",Abs);("lda",Abs);("ldx",Abs);("lda",Lng);
(* b *) ("bcs",Rel8);("lda",IDpY);("lda",IDp); ("lda",SrY); ("ldy",DpX);("lda",DpX);("ldx",DpY);("lda",ILDpY);
        ("clv",Imp); ("lda",AbsY);("tsx",Imp); ("tyx",Imp); ("ldy",AbsX);("lda",AbsX);("ldx",AbsY);("lda",LngX);
(* c *) ("cpy",ImmX);("cmp",IDpX);("rep",Imm8);("cmp",Sr);  ("cpy",Dp); ("cmp",Dp); ("dec",Dp); ("cmp",ILDp);
        ("iny",Imp); ("cmp",ImmM);("dex",Imp); ("wai",Imp); ("cpy",Abs);("cmp",Abs);("dec",Abs);("cmp",Lng);
(* d *) ("bne",Rel8);("cmp",IDpY);("cmp",IDp); ("cmp",SrY); ("pei",Dp); ("cmp",DpX);("dec",DpX);("cmp",ILDpY);
        ("cld",Imp); ("cmp",AbsY);("phx",Imp); ("stp",Imp); ("jmp",ILAbs);("cmp",AbsX);("dec",AbsX);("cmp",LngX);
(* e *) ("cpx",ImmX);("sbc",IDpX);("sep",Imm8);("sbc",Sr);  ("cpx",Dp); ("sbc",Dp); ("inc",Dp); ("sbc",ILDp);
        ("inx",Imp); ("sbc",ImmM);("nop",Imp); ("xba",Imp); ("cpx",Abs);("sbc",Abs);("inc",Abs);("sbc",Lng);
(* f *) ("beq",Rel8);("sbc",IDpY);("sbc",IDp); ("sbc",SrY); ("pea",Imm16);("sbc",DpX);("inc",DpX);("sbc",ILDpY);
        ("sed",Imp); ("sbc",AbsY);("plx",Imp); ("xce",Imp); ("jsr",IAbsX);("sbc",AbsX);("inc",AbsX);("sbc",LngX)].

Definition op_entry (op : Z) : string * form := nth (Z.to_nat op) matrix ("", Imp).
Definition op_name (op : Z) : string := fst (op_entry op).
Definition op_form (op : Z) : form := snd (op_entry op).
(** Length of the instruction with opcode [op], as the processor sees it. *)
Definition cpu_length (op : Z) (m x : bool) : Z := 1 + operand_bytes (op_form op) m x.
