(** When another round of the analysis would change nothing. *)
From Verif Require Import Base ModelExpr ModelMnemonic ModelAMode ModelState ModelInstr ModelStatement ModelModule SpecArith SpecScope SpecState SpecFlow.
Open Scope list_scope.

(** The state recorded for the statement [k] already includes [s], as far as the mode bits and
    the stack go. *)
Definition includes (ls : list line) (k : nat) (s : estate) : Prop :=
  exists l, nth_error ls k = Some l /\ ln_reached l = true /\ flags_merge (es_flags (ln_in l)) (es_flags s) = es_flags (ln_in l) /\
    stack_merge (es_stack (ln_in l)) (es_stack s) = es_stack (ln_in l).

(** What each .entry declares, and what each reached statement passes on to the next one and
    to the target of its branch, is included in the states recorded there. *)
Definition stable (src : source) (ls : list line) : Prop :=
  (forall k d, stmt_at src k (SDir d) -> d_name d = D_entry -> includes ls (S k) (estate_of_flags (d_flags d))) /\
  (forall k l st s', nth_error ls k = Some l -> ln_reached l = true -> stmt_at src k st ->
     stmt_execute st (ln_in l) = Ok s' ->
     (forall i, st = SInstr i -> ~ stops i) -> (forall d, st = SDir d -> d_name d <> D_halt) -> includes ls (S k) s') /\
  (forall k l i n ty t s', nth_error ls k = Some l -> ln_reached l = true -> stmt_at src k (SInstr i) ->
     relative_branch (i_mnem i) -> i_arg1 i = Some (EId (FullId None n) ty) -> denotes src (Z.of_nat k) n t ->
     execute_branch i (ln_in l) = Ok s' -> includes ls (Z.to_nat t) s').
