(** When the listing of a disassembly can be expected to assemble. *)
From Verif Require Import Base ModelNumeric ModelAddress ModelExpr ModelMnemonic ModelAMode ModelState ModelInstr ModelMap ModelRom ModelDisasm SpecArith SpecInstr SpecFlow SpecDisasm.
Open Scope list_scope.
Open Scope Z_scope.

(** The modes have a name that says all of them: unk, emu, native, and m8, m16, x8, x16 and
    their combinations. *)
Definition named (f : flags) : Prop :=
  fl_c f = B_unknown /\
  match fl_e f with
  | B_on => fl_m f = B_on /\ fl_x f = B_on
  | B_off => fl_m f <> B_original /\ fl_x f <> B_original
  | B_original => False
  | B_unknown => fl_m f = B_unknown /\ fl_x f = B_unknown
  end.
(** What is known where an entry point is declared can be said by its declaration: not the
    carry, not a width without the emulation flag, and nothing on the stack. *)
Definition declared (s : estate) : Prop :=
  known_bit (fl_c (es_flags s)) = None /\
  (known_bit (fl_e (es_flags s)) = None -> known_bit (fl_m (es_flags s)) = None /\ known_bit (fl_x (es_flags s)) = None) /\
  (es_stack s = Abandoned \/ es_stack s = Live []).
(** A width suffix says what is known. *)
Definition suffix_known (i : instr) (f : flags) : Prop :=
  let sized := mnem_to_string (hardware_mnemonic (i_mnem i)) in
  match i_suffix i with
  | S_none => True
  | S_b => (In sized m_sized /\ known_bit (fl_m f) = Some true) \/ (In sized x_sized /\ known_bit (fl_x f) = Some true)
  | S_w => (In sized m_sized /\ known_bit (fl_m f) = Some false) \/ (In sized x_sized /\ known_bit (fl_x f) = Some false)
  end.
(** The width of what is pulled is known, or is that on entry and the stack is tracked. *)
Definition pull_known (b : bitstate) (k : stack) : Prop := known_bit b <> None \/ b = B_original /\ exists l, k = Live l.
Definition pulls_known (m : mnemonic) (s : estate) : Prop :=
  (m = M_pla -> pull_known (fl_m (es_flags s)) (es_stack s)) /\
  (m = M_plx \/ m = M_ply -> pull_known (fl_x (es_flags s)) (es_stack s)).
(** One instruction ends before the next begins, and within its bank; if it does not stop,
    the bank goes on after it. *)
Definition apart (d : disassembler) : Prop :=
  (forall a c b x, collected d a c -> collected d b x -> a < b -> a + instr_size (di_instr c) <= b) /\
  (forall a c, collected d a c -> offset_of a + instr_size (di_instr c) <= 2 ^ 16) /\
  (forall a c, collected d a c -> ~ stops (di_instr c) -> offset_of a + instr_size (di_instr c) < 2 ^ 16).
Record listable (rets : omap retconv) (d : disassembler) : Prop := Listable {
  li_named : forall t f, om_find t rets = Some (RC_yields f) -> named f;
  li_per : forall a c, collected d a c -> i_mnem (di_instr c) <> M_per;
  li_entry : forall a c, collected d a c -> di_entry c = true -> declared (di_cur c);
  li_suffix : forall a c, collected d a c -> suffix_known (di_instr c) (es_flags (di_cur c));
  li_pull : forall a c, collected d a c -> pulls_known (i_mnem (di_instr c)) (di_cur c);
  li_apart : apart d }.
