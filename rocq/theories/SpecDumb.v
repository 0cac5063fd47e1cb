(** What util/dumb_disassemble.cc should print. *)
From Verif Require Import Base ModelNumeric ModelExpr ModelMnemonic ModelAMode ModelState ModelInstr ModelMap ModelRom
  SpecArith SpecInstr SpecState SpecFlow Spec65816 SpecDisasm ModelTools ModelDumb.
Open Scope list_scope.
Open Scope Z_scope.

(** A printed instruction, with the states before and after it. *)
Record printed := Printed { pr_pc : Z; pr_instr : instr; pr_before : estate; pr_after : estate }.

(** It is the instruction that the image holds there, as long as the state says, and its
    effect on the state. *)
Definition from_image (src : source) (e : printed) (n : Z) : Prop :=
  exists op rest, src (pr_pc e) 4 = Ok (op :: rest) /\
    known_length (es_flags (pr_before e)) op = Some n /\
    decode (op :: rest) (es_flags (pr_before e)) = Ok (pr_instr e) /\
    execute (pr_instr e) (pr_before e) = Ok (pr_after e).
(** The address a printed branch leads to. *)
Definition leads_to (src : source) (e : printed) (t : Z) : Prop :=
  relative_branch (i_mnem (pr_instr e)) /\
  exists bytes, src (pr_pc e) 4 = Ok bytes /\
    branch_destination (pr_pc e) (firstn (Z.to_nat (instruction_length (i_mode (pr_instr e)))) bytes) = Some t.
(** The state after the last of these branches to [t]. *)
Definition last_branch (src : source) (es : list printed) (t : Z) (s : estate) : Prop :=
  exists a e b, es = a ++ e :: b /\ leads_to src e t /\ pr_after e = s /\ forall x, In x b -> ~ leads_to src x t.
Definition no_branch (src : source) (es : list printed) (t : Z) : Prop := forall e, In e es -> ~ leads_to src e t.

(** [listed src a f es pc s]: the instructions [es] follow one another from [a] on, the first
    one in a state known by [f], and [pc] and [s] are the address and the state that follow
    them.  The state is handed on from one to the next; behind an instruction that stops, it
    is that of the last branch printed so far that leads there. *)
Inductive listed (src : source) (a : Z) (f : flags) : list printed -> Z -> estate -> Prop :=
| li_start : listed src a f [] a (estate_of_flags f)
| li_next : forall es pc s i s' n, listed src a f es pc s -> from_image src (Printed pc i s s') n -> ~ stops i ->
    listed src a f (es ++ [Printed pc i s s']) (same_bank_plus pc n) s'
| li_resume : forall es pc s i s' n t, listed src a f es pc s -> from_image src (Printed pc i s s') n -> stops i ->
    last_branch src (es ++ [Printed pc i s s']) (same_bank_plus pc n) t ->
    listed src a f (es ++ [Printed pc i s s']) (same_bank_plus pc n) t.

(** The remark on a branch says where it leads, and what was known there before. *)
Inductive remark (src : source) (before : list printed) (e : printed) : string -> Prop :=
| re_none : (forall t, ~ leads_to src e t) -> remark src before e ""
| re_new : forall t, leads_to src e t -> no_branch src before t ->
    remark src before e (" to " ++ address_to_string t ++ " (new)")%string
| re_was : forall t s, leads_to src e t -> last_branch src before t s ->
    remark src before e (" to " ++ address_to_string t ++ " (was " ++ flags_to_string (es_flags s) ++ ")")%string.
(** One line for each instruction: address, text, the flags after it, the remark. *)
Inductive prints (src : source) : list printed -> list string -> Prop :=
| pr_nil : prints src [] []
| pr_line : forall es lines e r, prints src es lines -> remark src es e r ->
    prints src (es ++ [e]) (lines ++ [(address_to_string (pr_pc e) ++ " - " ++ pad_left 30 (instr_to_string (pr_instr e))
      ++ " ; " ++ flags_to_string (es_flags (pr_after e)) ++ r)%string]).

(** The printing ends behind an instruction that stops, because no branch leads right behind it:
    none leads any further, or the nearest that does leaves a gap. *)
Definition nearest (src : source) (es : list printed) (from t : Z) (s : estate) : Prop :=
  from <= t /\ last_branch src es t s /\ forall t', from <= t' < t -> no_branch src es t'.
Inductive ending (src : source) (es : list printed) (next : Z) : list string -> Prop :=
| en_end : (forall t, next <= t -> no_branch src es t) -> ending src es next ["End of subroutine."%string]
| en_gap : forall t s, nearest src es next t s -> next < t ->
    ending src es next [("Gap found here.  Nearest local jump target is " ++ address_to_string t ++ " (" ++ flags_to_string (es_flags s) ++ ").")%string].
(** The earliest target is named last. *)
Inductive summary (src : source) (es : list printed) : list string -> Prop :=
| su_none : (forall t, no_branch src es t) -> summary src es []
| su_first : forall t s, last_branch src es t s -> (forall t', t' < t -> no_branch src es t') ->
    summary src es [("Earliest branch target " ++ address_to_string t ++ " (" ++ flags_to_string (es_flags s) ++ ").")%string].

(** The next instruction can not be had. *)
Definition fails (src : source) (pc : Z) (s : estate) (e : err) : Prop :=
  src pc 4 = Err e \/
  exists bytes, src pc 4 = Ok bytes /\
    (decode bytes (es_flags s) = Err e \/ exists i, decode bytes (es_flags s) = Ok i /\ execute i s = Err e).

(** [falls src a f o n pc c]: the routine at [a] is entered in the state [o], of which [f] is
    true, and the processor has executed [n] instructions without taking a branch; it is at
    [pc] in the state [c].  Called routines return with the modes they are entered with. *)
Inductive falls (src : source) (a : Z) (f : flags) (o : cpu) : nat -> Z -> cpu -> Prop :=
| fa_start : modes_ok (c_modes o) -> flags_describe (c_modes o) f (c_modes o) -> falls src a f o 0 a o
| fa_next : forall n pc c c' op rest i, falls src a f o n pc c -> src pc 4 = Ok (op :: rest) ->
    executes [] pc op rest i -> ~ stops i -> mode_step o i (nth 0 rest 0) c c' ->
    falls src a f o (Datatypes.S n) (same_bank_plus pc (cpu_length op (p_m (c_modes c)) (p_x (c_modes c)))) c'.
(** What the analysis follows (see C18). *)
Definition tractable (e : printed) : Prop :=
  stack_untracked (i_mnem (pr_instr e)) = false /\
  (i_mnem (pr_instr e) = M_xce -> fl_e (es_flags (pr_before e)) <> B_original /\ fl_c (es_flags (pr_before e)) <> B_original).
(** Nothing can be read at four addresses in a row. *)
Definition hole (src : source) (h : Z) : Prop := forall k, 0 <= k < 4 -> exists e, src (same_bank_plus h k) 4 = Err e.
(** A read of four bytes succeeds or reports an error. *)
Definition answers (src : source) : Prop :=
  forall a, addr24 a -> (exists l, src a 4 = Ok l) \/ exists e, src a 4 = Err e.

(** How the printing ends, after at most [fuel] instructions: with an error message, after an
    instruction that stops, or not yet.  [Execute] may also have undefined behaviour. *)
Definition finishes (msg : err -> string) (src : source) (a : Z) (f : flags) (es : list printed) (pc : Z) (s : estate) (lines : list string) (fuel : nat) (out : list string) (r : res Z) : Prop :=
  (r = Ok 1 /\ exists e, fails src pc s e /\ out = lines ++ [error_line pc (msg e)]) \/
  (r = Ok 0 /\ exists i s' n lines' l1 l2, from_image src (Printed pc i s s') n /\ stops i /\ prints src (es ++ [Printed pc i s s']) lines' /\
     ending src (es ++ [Printed pc i s s']) (same_bank_plus pc n) l1 /\ summary src (es ++ [Printed pc i s s']) l2 /\ out = lines' ++ l1 ++ l2) \/
  (r = OutOfFuel /\ List.length es = fuel /\ out = lines) \/
  (exists u bytes i, r = UB u /\ src pc 4 = Ok bytes /\ decode bytes (es_flags s) = Ok i /\ execute i s = UB u /\ out = lines).
