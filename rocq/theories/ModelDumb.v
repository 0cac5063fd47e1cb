(** util/dumb_disassemble.cc, after the reading of the arguments and of the image.  Output is a
    list of lines; [msg] is the text of an error, which also depends on its location. *)
From Verif Require Import Base ModelNumeric ModelAddress ModelMnemonic ModelExpr ModelAMode
  ModelOpcode ModelState ModelInstr ModelMap ModelRom ModelDisasm ModelTools.
Open Scope string_scope.
Open Scope Z_scope.

(** The conversion "%<n>s" of absl::PrintF. *)
Definition pad_left (n : nat) (s : string) : string :=
  String.append (spaces (n - String.length s)) s.

(** std::map::lower_bound. *)
Fixpoint om_lower_bound {A} (k : Z) (m : omap A) : option (Z * A) :=
  match m with
  | [] => None
  | (j, v) :: m' => if j <? k then om_lower_bound k m' else Some (j, v)
  end.

(** The variables of the loop: address, execution_state, local_jumps. *)
Record dumb := Dumb { du_pc : Z; du_state : estate; du_jumps : omap estate }.
(** How an iteration ends: with the next one, by break, or by return 1. *)
Inductive dumb_end := Again (d : dumb) | Break (d : dumb) | Return1.

(** util/dumb_disassemble.cc:48-49, 55-56, 64-65. *)
Definition error_line (pc : Z) (text : string) : string :=
  String.append (address_to_string pc) (String.append " - ERROR: " text).
(** util/dumb_disassemble.cc:83-84. *)
Definition instruction_line (pc : Z) (i : instr) (after : flags) (note : string) : string :=
  String.append (address_to_string pc) (String.append " - " (String.append (pad_left 30 (instr_to_string i))
    (String.append " ; " (String.append (flags_to_string after) note)))).
(** util/dumb_disassemble.cc:73-79. *)
Definition branch_note (target : Z) (prev : option estate) : string :=
  String.append " to " (String.append (address_to_string target)
    (match prev with
     | None => " (new)"
     | Some s => String.append " (was " (String.append (flags_to_string (es_flags s)) ")")
     end)).
(** util/dumb_disassemble.cc:92-94. *)
Definition gap_line (target : Z) (s : estate) : string :=
  String.append "Gap found here.  Nearest local jump target is " (String.append (address_to_string target)
    (String.append " (" (String.append (flags_to_string (es_flags s)) ").")))  .
(** util/dumb_disassemble.cc:101-105. *)
Definition earliest_lines (jumps : omap estate) : list string :=
  match jumps with
  | [] => []
  | (t, s) :: _ => [String.append "Earliest branch target " (String.append (address_to_string t)
                     (String.append " (" (String.append (flags_to_string (es_flags s)) ").")))]
  end.

(** util/dumb_disassemble.cc:85-99: what follows the printing of the instruction. *)
Definition dumb_next (i : instr) (next_pc : Z) (s : estate) (jumps : omap estate)
  : list string * dumb_end :=
  if is_exit_instruction i then
    match om_lower_bound next_pc jumps with
    | None => (["End of subroutine."], Break (Dumb next_pc s jumps))
    | Some (t, s') =>
        if next_pc <? t then ([gap_line t s'], Break (Dumb next_pc s jumps))
        else ([], Again (Dumb next_pc s' jumps))
    end
  else ([], Again (Dumb next_pc s jumps)).

(** util/dumb_disassemble.cc:46-99: one iteration.  [execute] may leave the state partly
    changed on an error; it is not used then. *)
Definition dumb_step (msg : err -> string) (src : source) (d : dumb)
  : list string * res dumb_end :=
  let pc := du_pc d in
  match (let* bytes := src pc 4 in
         let* i := decode bytes (es_flags (du_state d)) in
         let* s := execute i (du_state d) in
         Ok (i, s)) with
  | Err e => ([error_line pc (msg e)], Ok Return1)
  | UB u => ([], UB u)
  | OutOfFuel => ([], OutOfFuel)
  | Ok (i, s) =>
      let next_pc := add_wrapped pc (instruction_length (i_mode i)) in
      let finish (note : string) (jumps : omap estate) : list string * res dumb_end :=
        let (lines, next) := dumb_next i next_pc s jumps in
        (instruction_line pc i (es_flags s) note :: lines, Ok next) in
      if is_local_branch i then
        match branch_offset i with
        | Ok value =>
            let target := add_wrapped next_pc value in
            finish (branch_note target (om_find target (du_jumps d))) (om_set target s (du_jumps d))
        | Err e => ([], Err e)
        | UB u => ([], UB u)
        | OutOfFuel => ([], OutOfFuel)
        end
      else finish "" (du_jumps d)
  end.

(** util/dumb_disassemble.cc:45-106: what is printed, and the exit code. *)
Fixpoint dumb_loop (fuel : nat) (msg : err -> string) (src : source) (d : dumb)
  : list string * res Z :=
  match fuel with
  | O => ([], OutOfFuel)
  | S f =>
      match dumb_step msg src d with
      | (lines, Ok (Again d')) =>
          let (more, r) := dumb_loop f msg src d' in ((lines ++ more)%list, r)
      | (lines, Ok (Break d')) => ((lines ++ earliest_lines (du_jumps d'))%list, Ok 0)
      | (lines, Ok Return1) => (lines, Ok 1)
      | (lines, Err e) => (lines, Err e)
      | (lines, UB u) => (lines, UB u)
      | (lines, OutOfFuel) => (lines, OutOfFuel)
      end
  end.

(** util/dumb_disassemble.cc:42-106: started at the address [v] (an unsigned int). *)
Definition dumb_disassemble (fuel : nat) (msg : err -> string) (src : source) (v : Z) (f : flags)
  : list string * res Z :=
  match mk_address v with
  | Ok a => dumb_loop fuel msg src (Dumb a (estate_of_flags f) [])
  | Err e => ([], Err e)
  | UB u => ([], UB u)
  | OutOfFuel => ([], OutOfFuel)
  end.
