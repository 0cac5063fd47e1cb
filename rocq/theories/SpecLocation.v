(** Where errors stand. *)
From Verif Require Import Base ModelMnemonic ModelExpr ModelState ModelInstr ModelStatement ModelParse ModelToken
  ModelModule ModelAssembler ModelLocation SpecScope SpecInstr SpecLayout SpecAssemble SpecFlow SpecState.
Open Scope list_scope.
Open Scope Z_scope.

(** Forget the location of an error. *)
Definition erase {A} (r : lres A) : res A :=
  match r with LOk a => Ok a | LErr e _ => Err e | LUB u => UB u | LFuel => OutOfFuel end.
Definition werase {A} (x : lwres A) : wres A := (fst x, erase (snd x)).
Definition erase_sink (sk : lsink) : sink := fun ws w => erase (sk ws w).

(** What one line of text contains, and the statement [k] (from 0) of a file standing on its
    line [n] (from 1). *)
Definition contains (text : string) (es : list parsed) : Prop :=
  exists ts, tokenize text = Ok ts /\ parse ts = Ok es.
Definition count (es : list parsed) : Z := Z.of_nat (List.length (statements [] es)).
Definition stands (file : list string) (k n : Z) : Prop :=
  exists before text after ess es, file = before ++ text :: after /\
    n = Z.of_nat (List.length before) + 1 /\ Forall2 contains before ess /\ contains text es /\
    count (concat ess) <= k < count (concat ess ++ es).

(** Line [n] is the first to go wrong: whatever follows, the file is rejected with [e]. *)
Definition first_bad (file : list string) (n : Z) (text : string) (e : err) : Prop :=
  exists before after, file = before ++ text :: after /\ n = Z.of_nat (List.length before) + 1 /\
    (exists ld, load_lines (Loader empty_module [] []) before = Ok ld) /\
    forall after', load_asm_file (before ++ text :: after') = Err e.
(** The line has a `yields` or `noreturn`. *)
Definition has_convention (text : string) : Prop :=
  exists ts p, tokenize text = Ok ts /\ In (TPunct p) ts /\ In p [P_yields; P_noreturn].

(** A statement, or the statement with the width of its immediate operand settled. *)
Definition widened (s s' : statement) : Prop :=
  s' = s \/ exists i f m', s = SInstr i /\ settled f (i_mode i) m' /\ s' = SInstr (with_mode m' i).
(** A lookup of names, which may fail: the name is not known (here), has no value yet. *)
Definition looks_up (c : lookup_ctx) : Prop := forall id e, c id = Err e -> In e [E_null_lookup; E_undefined; E_before_def; E_logic].
(** Something done to the statement alone fails: executing it or its branch in some state,
    settling its operand width, evaluating its argument, encoding it. *)
Definition fails (s : statement) (e : err) : Prop :=
  (exists st, stmt_execute s st = Err e) \/
  (exists i st, s = SInstr i /\ execute_branch i st = Err e) \/
  (exists i f, s = SInstr i /\ fix_addressing_mode i f = Err e) \/
  (exists d c, s = SDir d /\ In (d_name d) [D_org; D_equ; D_remote] /\ looks_up c /\ eval_opt c (d_arg d) = Err e) \/
  (exists a c, looks_up c /\ stmt_bytes a c s = Err e).
(** The error [e] is about the statement [k] of a source, the sink having accepted [ws]. *)
Definition blamed (sk : lsink) (ws : list write) (src : source) (k : Z) (e : err) : Prop :=
  exists before labels s after s', src = before ++ (labels, s) :: after /\
    k = Z.of_nat (List.length before) /\ widened s s' /\
    let unplaced := forall x, In x (map snd before ++ [s]) -> ~ is_dir D_org x in
    (fails s' e \/
     (e = E_no_target /\ exists i n ty, s = SInstr i /\ relative_branch (i_mnem i) /\
        i_arg1 i = Some (EId (FullId None n) ty) /\ forall t, ~ denotes src k n t) \/
     (e = E_unreached /\ exists i, s = SInstr i) \/
     (e = E_no_address /\ 0 < stmt_size s' /\ unplaced) \/
     (e = E_no_value /\ (exists n, defined src None n k) /\ unplaced) \/
     (e = E_logic /\ is_dir D_entry s /\ unplaced) \/
     exists w c, stmt_bytes (fst w) c s' = Ok (Some (snd w)) /\
       ((e = E_overlap /\ (exists ws0, ws = ws0 ++ [w]) /\ ~ NoDup (flat_map touched ws)) \/
        exists l, sk ws w = LErr e l)).

Definition line_of (path : string) (n : Z) : location := Loc path (AtLine n).

(** How an error is reported. *)
Inductive reported (sk : lsink) (files : list (string * list string)) (ws : list write) (e : err)
  : location -> Prop :=
(* a line that cannot be read, or a statement that cannot stand there *)
| rep_line : forall path file n text, In (path, file) files -> first_bad file n text e ->
    reported sk files ws e (line_of path n)
| rep_convention : forall path file n text, In (path, file) files -> first_bad file n text e ->
    has_convention text -> In e [E_convention; E_logic] -> reported sk files ws e no_location
(* the innermost block that is never closed *)
| rep_open : forall path file src b n, In (path, file) files -> e = E_scope -> reads file src ->
    open_at (map snd src) b -> (forall b', open_at (map snd src) b' -> b' <= b) -> stands file b n ->
    reported sk files ws e (line_of path n)
| rep_statement : forall path file src k n, In (path, file) files -> reads file src ->
    stands file k n -> blamed sk ws src k e -> reported sk files ws e (line_of path n)
(* errors about no line in particular; the first: the last statement does not end a path *)
| rep_past_end : forall path file src before labels s, e = E_past_end -> In (path, file) files ->
    reads file src -> src = before ++ [(labels, s)] -> stmt_is_exit s = false ->
    reported sk files ws e no_location
| rep_cycle : e = E_cycle -> reported sk files ws e no_location
| rep_modules : e = E_overlap -> ~ NoDup (flat_map touched ws) -> reported sk files ws e no_location
(* a name defined in two files: the file of the first, and the number of a statement *)
| rep_duplicate : forall i j path path' file file' src src' mn n k k', e = E_duplicate ->
    nth_error files i = Some (path, file) -> nth_error files j = Some (path', file') -> i <> j ->
    reads file src -> reads file' src' -> module_named src mn -> module_named src' mn ->
    defined src None n k -> defined src' None n k' -> reported sk files ws e (line_of path k).
