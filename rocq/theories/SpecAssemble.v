(** What assembling writes. *)
From Verif Require Import Base ModelNumeric ModelExpr ModelMnemonic ModelAMode ModelState ModelInstr ModelStatement ModelModule
  ModelAssembler SpecArith SpecScope SpecLayout.
Open Scope list_scope.

(** The addresses of the bytes of a write. *)
Definition touched (w : write) : list Z :=
  map (fun k => same_bank_plus (fst w) (Z.of_nat k)) (seq 0 (List.length (snd w))).

(** The values of names seen by a line. *)
Definition context (a : assembler) (m : module) (l : line) : lookup_ctx :=
  module_ctx m (ln_scopes l) (assembler_ctx (as_mods a) (as_names a)).

(** A write is the encoding of the statement of a line, at its address. *)
Definition writes_line (a : assembler) (m : module) (l : line) (w : write) : Prop :=
  ln_value l = Some (fst w) /\ addr24 (fst w) /\
  stmt_bytes (fst w) (context a m l) (ln_stmt l) = Ok (Some (snd w)) /\
  Z.of_nat (List.length (snd w)) = stmt_size (ln_stmt l).
Definition has_bytes (l : line) : bool := 0 <? stmt_size (ln_stmt l).
(** The writes of a module, in the order of its lines. *)
Definition writes_module (a : assembler) (m : module) (ws : list write) : Prop :=
  Forall2 (writes_line a m) (filter has_bytes (md_lines m)) ws.

(** Every statement that has a place, and no other but .equ, has its address as value. *)
Definition addresses_hold (m : module) : Prop :=
  forall k l v, nth_error (md_lines m) k = Some l -> ~ is_dir D_equ (ln_stmt l) ->
  (ln_value l = Some v <-> located (map ln_stmt (md_lines m)) k v).

(** Every .equ has the value of its expression. *)
Definition constants_hold (a : assembler) (m : module) : Prop :=
  forall l d, In l (md_lines m) -> ln_stmt l = SDir d -> d_name d = D_equ ->
  exists e v, d_arg d = Some e /\ means (env_of (context a m l)) e v /\ ln_value l = Some v.

(** The statement of the source that a line holds: flag-dependent immediate operands have
    got the width of the recorded flags, which must be known. *)
Definition settled (f : flags) (m m' : amode) : Prop :=
  match m with
  | A_imm_fm => fl_m f = B_on /\ m' = A_imm_b \/ fl_m f = B_off /\ m' = A_imm_w
  | A_imm_fx => fl_x f = B_on /\ m' = A_imm_b \/ fl_x f = B_off /\ m' = A_imm_w
  | _ => m' = m
  end.
Definition resolved (s : statement) (l : line) : Prop :=
  match s with
  | SInstr i => ln_reached l = true /\
      exists m', settled (es_flags (ln_in l)) (i_mode i) m' /\ ln_stmt l = SInstr (with_mode m' i)
  | SDir d => ln_stmt l = SDir d
  end.
(** A module holds the statements, labels and scopes of a file. *)
Definition holds_file (file : list string) (m : module) : Prop :=
  exists src m0, SpecScope.reads file src /\ load_asm_file file = Ok m0 /\ same_scopes m0 m /\
    Forall2 resolved (map snd src) (md_lines m).
