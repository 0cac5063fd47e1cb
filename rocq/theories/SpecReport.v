(** What an assembled program has to tell: the places outside of it that it jumps to, how they
    return, and the names of its own places.  Independent of how the assembler gathers them. *)
From Verif Require Import Base ModelNumeric ModelAddress ModelExpr ModelMnemonic ModelAMode ModelState ModelInstr ModelStatement ModelMap ModelModule ModelAssembler
  SpecArith SpecState SpecScope SpecAssemble.
Open Scope Z_scope.

(** A number as an address: its 32 bits, which have to be at most 2^24. *)
Definition as_address (v x : Z) : Prop := x = v mod 2 ^ 32 /\ x <= 2 ^ 24.
Definition no_names (id : fullid) : option Z := None.

(** A line tells of a jump to [t] in the mode [f]: a JMP or JSL to a long address, or a JMP or
    JSR to a word in the bank of the instruction, with an operand that uses no names; or a
    .remote directive for [t], which may use names. *)
Definition tells_target (a : assembler) (m : module) (l : line) (t : Z) (f : flags) : Prop :=
  match ln_stmt l with
  | SInstr i =>
      f = es_flags (ln_in l) /\
      exists e v, i_arg1 i = Some e /\ means no_names e v /\
        (i_mode i = A_dir_l /\ (i_mnem i = M_jmp \/ i_mnem i = M_jsl) /\ as_address v t \/
         i_mode i = A_dir_w /\ (i_mnem i = M_jmp \/ i_mnem i = M_jsr) /\
         exists p, ln_value l = Some p /\ t = p / 2 ^ 16 mod 2 ^ 8 * 2 ^ 16 + v mod 2 ^ 16)
  | SDir d =>
      f = d_flags d /\ d_name d = D_remote /\
      exists e v, d_arg d = Some e /\ means (env_of (context a m l)) e v /\ as_address v t
  end.

(** The modes [K] taken together: the sharpest consistent mode that allows all of them. *)
Definition bit_allows (g f : bitstate) : Prop := g = f \/ g = B_unknown.
Definition allows (g f : flags) : Prop :=
  bit_allows (fl_e g) (fl_e f) /\ bit_allows (fl_m g) (fl_m f) /\ bit_allows (fl_x g) (fl_x f) /\ bit_allows (fl_c g) (fl_c f).
Definition together (K : flags -> Prop) (g : flags) : Prop :=
  consistent g /\ (forall f, K f -> allows g f) /\
  forall h, consistent h -> (forall f, K f -> allows h f) -> allows h g.

(** A line tells how the code at [t] returns: .entry for its own place, .remote for another. *)
Definition tells_return (a : assembler) (m : module) (l : line) (t : Z) (r : retconv) : Prop :=
  exists d, ln_stmt l = SDir d /\ d_ret d = r /\ r <> RC_default /\
    (d_name d = D_entry /\ (exists v, ln_value l = Some v /\ as_address v t) \/
     d_name d = D_remote /\ exists e v, d_arg d = Some e /\ means (env_of (context a m l)) e v /\ as_address v t).
(** The last word of a module on it. *)
Definition module_returns (a : assembler) (m : module) (t : Z) (r : retconv) : Prop :=
  exists before l after, md_lines m = (before ++ l :: after)%list /\ tells_return a m l t r /\
    forall l' r', In l' after -> ~ tells_return a m l' t r'.

(** The file defines [n] for the whole module, with the value [x]. *)
Definition names_place (file : list string) (m : module) (n : string) (x : Z) : Prop :=
  exists src k l v, reads file src /\ defined src None n k /\ znth (md_lines m) k = Some l /\ ln_value l = Some v /\ as_address v x.
