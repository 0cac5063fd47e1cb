(** Static analysis state.  Transcribes nsasm/execution_state.{h,cc} and
    nsasm/calling_convention.{h,cc}. *)
From Verif Require Import Base.
Open Scope string_scope.
Open Scope Z_scope.

(** nsasm/execution_state.h:13-23. *)
Inductive bitstate := B_off | B_on | B_original | B_unknown.

(** Enumerator comparison. *)
Definition bit_eqb (a b : bitstate) : bool :=
  match a, b with
  | B_off, B_off | B_on, B_on | B_original, B_original | B_unknown, B_unknown => true
  | _, _ => false
  end.

(** nsasm/execution_state.h:30-53. *)
Definition constrained (input e : bitstate) : bitstate :=
  if bit_eqb e B_on then B_on
  else if bit_eqb e B_off then input
  else if bit_eqb input B_on then B_on
  else if bit_eqb input B_original && bit_eqb e B_original then B_original
  else B_unknown.

(** nsasm/execution_state.h:57-59. *)
Definition bit_merge (a b : bitstate) : bitstate := if bit_eqb a b then a else B_unknown.

(** nsasm/execution_state.h:61-135 (fields). *)
Record flags := RawFlags { fl_e : bitstate; fl_m : bitstate; fl_x : bitstate; fl_c : bitstate }.

(** nsasm/execution_state.h:64-69. *)
Definition mk_flags (e m x c : bitstate) : flags :=
  RawFlags e (constrained m e) (constrained x e) c.

(** nsasm/execution_state.h:83-85. *)
Definition set_m (s : bitstate) (f : flags) : flags :=
  RawFlags (fl_e f) (constrained s (fl_e f)) (fl_x f) (fl_c f).
Definition set_x (s : bitstate) (f : flags) : flags :=
  RawFlags (fl_e f) (fl_m f) (constrained s (fl_e f)) (fl_c f).
Definition set_c (s : bitstate) (f : flags) : flags :=
  RawFlags (fl_e f) (fl_m f) (fl_x f) s.

(** nsasm/execution_state.h:89-94. *)
Definition unk_to_orig (b : bitstate) : bitstate :=
  match b with B_unknown => B_original | b => b end.
Definition set_incoming (f : flags) : flags :=
  RawFlags (unk_to_orig (fl_e f)) (unk_to_orig (fl_m f)) (unk_to_orig (fl_x f))
           (unk_to_orig (fl_c f)).

(** nsasm/execution_state.h:96-105. *)
Definition exchange_ce (f : flags) : flags :=
  let e := fl_c f in
  RawFlags e (constrained (fl_m f) e) (constrained (fl_x f) e) (fl_e f).

(** nsasm/execution_state.h:116-119. *)
Definition flags_merge (a b : flags) : flags :=
  mk_flags (bit_merge (fl_e a) (fl_e b)) (bit_merge (fl_m a) (fl_m b))
           (bit_merge (fl_x a) (fl_x b)) (bit_merge (fl_c a) (fl_c b)).

(** nsasm/execution_state.h:123-126. *)
Definition flags_eqb (a b : flags) : bool :=
  bit_eqb (fl_e a) (fl_e b) && bit_eqb (fl_m a) (fl_m b) && bit_eqb (fl_x a) (fl_x b)
  && bit_eqb (fl_c a) (fl_c b).

(** StatusFlags(): nsasm/execution_state.h:64-65. *)
Definition default_flags : flags := mk_flags B_unknown B_unknown B_unknown B_unknown.

(** nsasm/execution_state.cc:9. *)
Definition bit_known (b : bitstate) : bool :=
  match b with B_off | B_on => true | _ => false end.

(** nsasm/execution_state.cc:38-55. *)
Definition flags_to_name (f : flags) : string :=
  if negb (bit_known (fl_e f)) then "unk"
  else if bit_eqb (fl_e f) B_on then "emu"
  else
    let m_str := if negb (bit_known (fl_m f)) then ""
                 else if bit_eqb (fl_m f) B_off then "m16" else "m8" in
    let x_str := if negb (bit_known (fl_x f)) then ""
                 else if bit_eqb (fl_x f) B_off then "x16" else "x8" in
    if String.eqb m_str "" && String.eqb x_str "" then "native"
    else String.append m_str x_str.

(** nsasm/execution_state.cc:57-62. *)
Definition flags_to_string (f : flags) : string :=
  String.append (flags_to_name f)
    (if bit_eqb (fl_c f) B_on then ", c=1" else if bit_eqb (fl_c f) B_off then ", c=0" else "").

(** nsasm/execution_state.cc:13-26. *)
Definition consume_name_part (s : string) : option (bitstate * string) :=
  match s with
  | String "8" s' => Some (B_on, s')
  | String "1" (String "6" s') => Some (B_off, s')
  | _ => None
  end.

(** nsasm/execution_state.cc:28-34: ConsumeByte. *)
Definition consume_byte (ch : ascii) (s : string) : option string :=
  match s with
  | String c s' => if Ascii.eqb c ch then Some s' else None
  | EmptyString => None
  end.

(** nsasm/execution_state.cc:80-86 and 87-93: optional "m8"/"m16" part. *)
Definition optional_part (ch : ascii) (s : string) : option (bitstate * string) :=
  match consume_byte ch s with
  | Some s' => consume_name_part s'
  | None => Some (B_unknown, s)
  end.

(** nsasm/execution_state.cc:64-99. *)
Definition flags_from_name (name : string) : option flags :=
  let lower := str_lower name in
  if String.eqb lower "unk" then Some (mk_flags B_unknown B_unknown B_unknown B_unknown)
  else if String.eqb lower "emu" then Some (mk_flags B_on B_on B_on B_unknown)
  else if String.eqb lower "native" then Some (mk_flags B_off B_unknown B_unknown B_unknown)
  else if String.eqb lower "" then None
  else
    match optional_part "m" lower with
    | None => None
    | Some (m_bit, s1) =>
        match optional_part "x" s1 with
        | None => None
        | Some (x_bit, s2) =>
            if negb (String.eqb s2 "") then None
            else Some (mk_flags B_off m_bit x_bit B_unknown)
        end
    end.

(** nsasm/execution_state.h:142-186.  value_ is 0 unless the type is T_value, so the pair
    (type_, value_) is this sum; values are uint16_t. *)
Inductive regval := RV_unknown | RV_original | RV_value (v : Z).

(** nsasm/execution_state.h:151: construction from an int argument truncates. *)
Definition rv_of_int (v : Z) : regval := RV_value (to_uint16 v).

(** nsasm/execution_state.h:160-167: value_ + offset is int arithmetic. *)
Definition rv_add (off mask : Z) (r : regval) : res regval :=
  match r with
  | RV_value v => let* s := int_result (v + off) in Ok (RV_value (to_uint16 (Z.land s mask)))
  | _ => Ok RV_unknown
  end.

(** nsasm/execution_state.h:169-171. *)
Definition rv_eqb (a b : regval) : bool :=
  match a, b with
  | RV_unknown, RV_unknown | RV_original, RV_original => true
  | RV_value x, RV_value y => x =? y
  | _, _ => false
  end.

(** nsasm/execution_state.h:175-181. *)
Definition rv_merge (a b : regval) : regval := if rv_eqb a b then a else RV_unknown.

(** Tracked register names, for the families T_a_*, T_x_*, T_y_* of
    nsasm/execution_state.h:203-217. *)
Inductive treg := R_a | R_x | R_y.
Definition treg_eqb (a b : treg) : bool :=
  match a, b with R_a, R_a | R_x, R_x | R_y, R_y => true | _, _ => false end.

(** nsasm/execution_state.h:201-320.  The union member not selected by type_ is not
    represented; for the varsize types value_ is 0 or 1 ("holds the original value"),
    for the remaining types it is 0. *)
Inductive stackval :=
| SV_unknown
| SV_byte (v : Z)
| SV_flags (f : flags)
| SV_hi (r : treg)
| SV_lo (r : treg)
| SV_var (r : treg) (orig : bool)
| SV_dbr.

(** nsasm/execution_state.h:228-262, high byte case (229-238). *)
Definition sv_of_hi (t : treg) (r : regval) : stackval :=
  match r with
  | RV_original => SV_hi t
  | RV_unknown => SV_unknown
  | RV_value v => SV_byte (Z.land (Z.shiftr v 8) 0xff)
  end.
(** nsasm/execution_state.h:239-249, low byte of A, X, Y. *)
Definition sv_of_lo (t : treg) (r : regval) : stackval :=
  match r with
  | RV_original => SV_lo t
  | RV_unknown => SV_unknown
  | RV_value v => SV_byte (Z.land v 0xff)
  end.
(** nsasm/execution_state.h:239-249, T_dbr. *)
Definition sv_of_dbr (r : regval) : stackval :=
  match r with
  | RV_original => SV_dbr
  | RV_unknown => SV_unknown
  | RV_value v => SV_byte (Z.land v 0xff)
  end.
(** nsasm/execution_state.h:250-256. *)
Definition sv_of_var (t : treg) (r : regval) : stackval :=
  SV_var t (match r with RV_original => true | _ => false end).

(** Comparison of type_ fields. *)
Definition sv_same_type (a b : stackval) : bool :=
  match a, b with
  | SV_unknown, SV_unknown | SV_byte _, SV_byte _ | SV_flags _, SV_flags _ | SV_dbr, SV_dbr =>
      true
  | SV_hi r, SV_hi s | SV_lo r, SV_lo s | SV_var r _, SV_var s _ => treg_eqb r s
  | _, _ => false
  end.

(** nsasm/execution_state.h:301-303. *)
Definition is_varsize (a : stackval) : bool := match a with SV_var _ _ => true | _ => false end.

(** nsasm/execution_state.h:265-286. *)
Definition sv_merge (a b : stackval) : stackval :=
  if negb (sv_same_type a b) then SV_unknown
  else match a, b with
  | SV_byte x, SV_byte y => if x =? y then a else SV_unknown
  | SV_flags f, SV_flags g => SV_flags (flags_merge f g)
  | SV_var r o, SV_var _ p => if Bool.eqb o p then a else SV_var r false
  | _, _ => a
  end.

(** nsasm/execution_state.h:288-290. *)
Definition can_merge (a b : stackval) : bool :=
  sv_same_type a b || (negb (is_varsize a) && negb (is_varsize b)).

(** nsasm/execution_state.h:305-312. *)
Definition sv_eqb (a b : stackval) : bool :=
  if negb (sv_same_type a b) then false
  else match a, b with
  | SV_flags f, SV_flags g => flags_eqb f g
  | SV_byte x, SV_byte y => x =? y
  | SV_var _ o, SV_var _ p => Bool.eqb o p
  | _, _ => true
  end.

(** nsasm/execution_state.h:323-535.  The head of the list is the top of the stack (the
    back of stack_).  abandoned_ with an empty vector is [Abandoned]. *)
Inductive stack := Abandoned | Live (l : list stackval).

(** push_back guarded by !abandoned_, e.g. nsasm/execution_state.h:335-339, 349-353. *)
Definition push_sv (v : stackval) (s : stack) : stack :=
  match s with Abandoned => Abandoned | Live l => Live (v :: l) end.

(** nsasm/execution_state.h:355-360 (argument already uint16_t). *)
Definition push_word (v : Z) (s : stack) : stack :=
  push_sv (SV_byte (Z.land v 0xff)) (push_sv (SV_byte (Z.land (Z.shiftr v 8) 0xff)) s).
(** nsasm/execution_state.h:370-375. *)
Definition push_unknown_word (s : stack) : stack := push_sv SV_unknown (push_sv SV_unknown s).
(** nsasm/execution_state.h:362-368, with the conversion optional<int> to
    optional<uint16_t> at the call in instruction.cc:318. *)
Definition push_word_opt (v : option Z) (s : stack) : stack :=
  match v with Some v => push_word (to_uint16 v) s | None => push_unknown_word s end.

(** nsasm/execution_state.h:377-389. *)
Definition pull_byte (s : stack) : stackval * stack :=
  match s with
  | Abandoned => (SV_unknown, Abandoned)
  | Live [] => (SV_unknown, Abandoned)
  | Live (v :: l) => if is_varsize v then (SV_unknown, Abandoned) else (v, Live l)
  end.

(** nsasm/execution_state.h:393-404: back() of an empty vector is undefined. *)
Definition pull_varsize (s : stack) : res (stackval * stack) :=
  match s with
  | Abandoned => Ok (SV_unknown, Abandoned)
  | Live [] => UB UB_oob
  | Live (v :: l) => if is_varsize v then Ok (v, Live l) else Ok (SV_unknown, Abandoned)
  end.

(** nsasm/execution_state.h:407-422. *)
Definition push_reg (t : treg) (r : regval) (bit : bitstate) (s : stack) : stack :=
  match s with
  | Abandoned => Abandoned
  | Live l =>
      match bit with
      | B_original => Live (sv_of_var t r :: l)
      | B_unknown => Abandoned
      | B_on => Live (sv_of_lo t r :: l)
      | B_off => Live (sv_of_lo t r :: sv_of_hi t r :: l)
      end
  end.

(** nsasm/execution_state.h:293-296: value() asserts the type is T_byte. *)
Definition sv_value (v : stackval) : res Z :=
  match v with SV_byte b => Ok b | _ => UB UB_assert end.

(** nsasm/execution_state.h:424-467. *)
Definition pull_reg (t : treg) (bit : bitstate) (s : stack) : res (regval * stack) :=
  match s, bit with
  | Abandoned, _ => Ok (RV_unknown, Abandoned)
  | _, B_unknown => Ok (RV_unknown, Abandoned)
  | _, B_original =>
      let* (result, s') := pull_varsize s in
      if sv_same_type result (SV_var t false) then
        let* v := sv_value result in
        if v =? 1 then Ok (RV_original, s') else Ok (RV_unknown, s')
      else Ok (RV_unknown, Abandoned)
  | _, B_on =>
      let (byte, s') := pull_byte s in
      if sv_same_type byte (SV_lo t) then Ok (RV_original, s')
      else match byte with
           | SV_byte v => Ok (RV_value v, s')
           | _ => Ok (RV_unknown, s')
           end
  | _, B_off =>
      let (lo, s1) := pull_byte s in
      let (hi, s2) := pull_byte s1 in
      if sv_same_type lo (SV_lo t) && sv_same_type hi (SV_hi t) then Ok (RV_original, s2)
      else match lo, hi with
           | SV_byte l, SV_byte h => Ok (RV_value (to_uint16 (Z.shiftl l 8 + h)), s2)
           | _, _ => Ok (RV_unknown, s2)
           end
  end.

(** nsasm/execution_state.h:517-523, on vectors of equal length; [None] = abandoned. *)
Fixpoint merge_lists (a b : list stackval) : option (list stackval) :=
  match a, b with
  | [], [] => Some []
  | x :: a', y :: b' =>
      if can_merge x y then
        match merge_lists a' b' with
        | Some l => Some (sv_merge x y :: l)
        | None => None
        end
      else None
  | _, _ => None
  end.

(** nsasm/execution_state.h:513-526. *)
Definition stack_merge (a b : stack) : stack :=
  match a, b with
  | Live l, Live k => match merge_lists l k with Some r => Live r | None => Abandoned end
  | _, _ => Abandoned
  end.

(** nsasm/execution_state.h:528-530. *)
Fixpoint svlist_eqb (a b : list stackval) : bool :=
  match a, b with
  | [], [] => true
  | x :: a', y :: b' => sv_eqb x y && svlist_eqb a' b'
  | _, _ => false
  end.
Definition stack_eqb (a b : stack) : bool :=
  match a, b with
  | Abandoned, Abandoned => true
  | Live l, Live k => svlist_eqb l k
  | _, _ => false
  end.

(** nsasm/execution_state.h:539-631. *)
Record estate := EState {
  es_a : regval; es_xr : regval; es_yr : regval; es_dbr : regval;
  es_flags : flags; es_stack : stack }.

(** nsasm/execution_state.h:542. *)
Definition default_estate : estate :=
  EState RV_unknown RV_unknown RV_unknown RV_unknown default_flags (Live []).
(** nsasm/execution_state.h:545-547. *)
Definition estate_of_flags (f : flags) : estate :=
  EState RV_unknown RV_unknown RV_unknown RV_unknown (set_incoming f) (Live []).

(** Member updates. *)
Definition with_a (r : regval) (s : estate) : estate :=
  EState r (es_xr s) (es_yr s) (es_dbr s) (es_flags s) (es_stack s).
Definition with_x (r : regval) (s : estate) : estate :=
  EState (es_a s) r (es_yr s) (es_dbr s) (es_flags s) (es_stack s).
Definition with_y (r : regval) (s : estate) : estate :=
  EState (es_a s) (es_xr s) r (es_dbr s) (es_flags s) (es_stack s).
Definition with_dbr (r : regval) (s : estate) : estate :=
  EState (es_a s) (es_xr s) (es_yr s) r (es_flags s) (es_stack s).
Definition with_flags (f : flags) (s : estate) : estate :=
  EState (es_a s) (es_xr s) (es_yr s) (es_dbr s) f (es_stack s).
Definition with_stack (k : stack) (s : estate) : estate :=
  EState (es_a s) (es_xr s) (es_yr s) (es_dbr s) (es_flags s) k.

(** nsasm/execution_state.h:559-562. *)
Definition push_flags (s : estate) : estate :=
  with_stack (push_sv (SV_flags (es_flags s)) (es_stack s)) s.
Definition push_a (s : estate) : estate :=
  with_stack (push_reg R_a (es_a s) (fl_m (es_flags s)) (es_stack s)) s.
Definition push_x (s : estate) : estate :=
  with_stack (push_reg R_x (es_xr s) (fl_x (es_flags s)) (es_stack s)) s.
Definition push_y (s : estate) : estate :=
  with_stack (push_reg R_y (es_yr s) (fl_x (es_flags s)) (es_stack s)) s.

(** nsasm/execution_state.h:563-565. *)
Definition pull_a (s : estate) : res estate :=
  let* (r, k) := pull_reg R_a (fl_m (es_flags s)) (es_stack s) in Ok (with_a r (with_stack k s)).
Definition pull_x (s : estate) : res estate :=
  let* (r, k) := pull_reg R_x (fl_x (es_flags s)) (es_stack s) in Ok (with_x r (with_stack k s)).
Definition pull_y (s : estate) : res estate :=
  let* (r, k) := pull_reg R_y (fl_x (es_flags s)) (es_stack s) in Ok (with_y r (with_stack k s)).

(** nsasm/execution_state.h:567-581. *)
Definition pull_flags (s : estate) : estate :=
  let (v, k) := pull_byte (es_stack s) in
  let s := with_stack k s in
  match v with
  | SV_flags g =>
      with_flags (mk_flags (fl_e (es_flags s)) (fl_m g) (fl_x g) (fl_c g)) s
  | _ => with_flags (mk_flags (fl_e (es_flags s)) B_unknown B_unknown B_unknown) s
  end.

(** nsasm/execution_state.h:583-584. *)
Definition wipe_a (s : estate) : estate := with_a RV_unknown s.
Definition wipe_carry (s : estate) : estate := with_flags (set_c B_unknown (es_flags s)) s.

(** nsasm/execution_state.h:601-614. *)
Definition es_merge (a b : estate) : estate :=
  EState (rv_merge (es_a a) (es_a b)) (rv_merge (es_xr a) (es_xr b))
         (rv_merge (es_yr a) (es_yr b)) (rv_merge (es_dbr a) (es_dbr b))
         (flags_merge (es_flags a) (es_flags b)) (stack_merge (es_stack a) (es_stack b)).

(** nsasm/execution_state.h:616-620. *)
Definition es_eqb (a b : estate) : bool :=
  rv_eqb (es_a a) (es_a b) && rv_eqb (es_xr a) (es_xr b) && rv_eqb (es_yr a) (es_yr b)
  && rv_eqb (es_dbr a) (es_dbr b) && flags_eqb (es_flags a) (es_flags b)
  && stack_eqb (es_stack a) (es_stack b).

(** nsasm/calling_convention.h:18-63. *)
Inductive retconv := RC_default | RC_yields (f : flags) | RC_noreturn.

(** nsasm/calling_convention.h:33-39. *)
Definition yield_flags (r : retconv) : option flags :=
  match r with RC_yields f => Some f | _ => None end.
(** nsasm/calling_convention.h:41-46. *)
Definition rc_apply (r : retconv) (s : estate) : estate :=
  match r with RC_yields f => with_flags f s | _ => s end.
(** nsasm/calling_convention.h:49-53. *)
Definition rc_is_default (r : retconv) : bool :=
  match r with RC_default => true | _ => false end.
Definition rc_is_exit (r : retconv) : bool :=
  match r with RC_noreturn => true | _ => false end.
(** nsasm/calling_convention.cc:7-18. *)
Definition rc_to_suffix (r : retconv) : string :=
  match r with
  | RC_default => ""
  | RC_yields f => String.append " yields " (flags_to_string f)
  | RC_noreturn => " noreturn"
  end.
