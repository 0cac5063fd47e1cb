(** What a message about status flags says of them. *)
From Verif Require Import Base ModelMnemonic ModelExpr ModelAMode ModelState ModelInstr ModelParseText SpecParseText.
Open Scope string_scope.
Open Scope list_scope.

(** The two flags that decide on widths. *)
Definition width_flags : list (string * (flags -> bitstate)) := [("m", fl_m); ("x", fl_x)].
(** The phrases about a flag, with the states in which they are true. *)
Definition phrases (c : string) : list (string * list bitstate) :=
  [("the `" ++ c ++ "` flag is set here, which causes an 8-bit access", [B_on]);
   ("the `" ++ c ++ "` flag is unset here, which causes a 16-bit access", [B_off]);
   ("`" ++ c ++ "` status flag is on here", [B_on]);
   ("`" ++ c ++ "` status flag is off here", [B_off]);
   ("depends on `" ++ c ++ "` flag state, which is unknown here", [B_unknown; B_original])]%string.
(** What [text] says of the flags is so in [f], and it says something. *)
Definition true_of (text : string) (f : flags) : Prop :=
  (forall c state phrase sts, In (c, state) width_flags -> In (phrase, sts) (phrases c) -> mentions text phrase -> In (state f) sts) /\
  exists c state phrase sts, In (c, state) width_flags /\ In (phrase, sts) (phrases c) /\ mentions text phrase.
Definition immediate (a : amode) : Prop := In a [A_imm_b; A_imm_w; A_imm_fm; A_imm_fx].
Definition with_suffix (s : suffix) (i : instr) : instr := Instr (i_mnem i) s (i_mode i) (i_arg1 i) (i_arg2 i) (i_ret i).
