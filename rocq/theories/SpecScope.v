(** Blocks, scopes and definitions of a source file. *)
From Verif Require Import Base ModelMnemonic ModelExpr ModelInstr ModelStatement ModelToken ModelParse
  ModelModule.
Open Scope list_scope.

(** A statement with the labels standing before it; true marks an exported label. *)
Definition source := list (list (string * bool) * statement).

(** Labels belong to the next statement.  (Labels after the last statement disappear.) *)
Fixpoint statements (pending : list (string * bool)) (es : list parsed) : source :=
  match es with
  | [] => []
  | PLabel n x :: es' => statements (pending ++ [(n, x)]) es'
  | PStmt s :: es' => (pending, s) :: statements [] es'
  end.
(** What a file contains, if all its lines can be read. *)
Definition reads (file : list string) (src : source) : Prop :=
  exists ess, Forall2 (fun line es => exists ts, tokenize line = Ok ts /\ parse ts = Ok es) file ess /\
              src = statements [] (concat ess).

Definition is_dir (d : directive_name) (s : statement) : Prop :=
  exists dir, s = SDir dir /\ d_name dir = d.

(** Blocks opened minus blocks closed. *)
Fixpoint nesting (ss : list statement) : Z :=
  match ss with
  | [] => 0
  | SDir d :: ss' =>
      match d_name d with D_begin => 1 | D_end => -1 | _ => 0 end + nesting ss'
  | SInstr _ :: ss' => nesting ss'
  end.
(** Every block is closed, and nothing else is. *)
Definition balanced (ss : list statement) : Prop :=
  nesting ss = 0 /\ forall a b, ss = a ++ b -> 0 <= nesting a.

(** The block opened at position [b] is still open after the statements [before]. *)
Definition open_at (before : list statement) (b : Z) : Prop :=
  exists pre s mid, before = pre ++ s :: mid /\ is_dir D_begin s /\ b = Z.of_nat (List.length pre) /\
    forall m1 m2, mid = m1 ++ m2 -> 0 <= nesting m1.

(** Where a label after the statements [before] is defined: Some block, or None for the
    module. *)
Definition scope_of (before : list statement) (exported : bool) (sc : option Z) : Prop :=
  match sc with
  | None => exported = true \/ forall b, ~ open_at before b
  | Some b => exported = false /\ open_at before b /\ forall b', open_at before b' -> b' <= b
  end.
(** The [p]-th label of the statement at [t] is [n] and is defined in the scope [sc]. *)
Definition label_at (src : source) (sc : option Z) (n : string) (t : Z) (p : nat) : Prop :=
  exists before labels s after x, src = before ++ (labels, s) :: after /\
    t = Z.of_nat (List.length before) /\ nth_error labels p = Some (n, x) /\
    scope_of (map snd before) x sc.
Definition defined (src : source) (sc : option Z) (n : string) (t : Z) : Prop :=
  exists p, label_at src sc n t p.
(** No name is defined twice in a scope. *)
Definition no_duplicates (src : source) : Prop :=
  forall sc n t p t' p', label_at src sc n t p -> label_at src sc n t' p' -> t = t' /\ p = p'.

(** A name used in the statement at [k] denotes the definition [t]: the one in the innermost
    block around it that has one, or else the one of the module. *)
Definition denotes (src : source) (k : Z) (n : string) (t : Z) : Prop :=
  exists before after, src = before ++ after /\ k = Z.of_nat (List.length before) /\
    let around := open_at (map snd before) in
    (exists b, around b /\ defined src (Some b) n t /\
       forall b' t', around b' -> b < b' -> ~ defined src (Some b') n t') \/
    (defined src None n t /\ forall b' t', around b' -> ~ defined src (Some b') n t').

(** At most one .module directive. *)
Definition one_module (src : source) : Prop :=
  forall a s b s' c, map snd src = a ++ s :: b ++ s' :: c -> is_dir D_module s -> ~ is_dir D_module s'.
(** The name of the module, empty without a .module directive. *)
Definition module_named (src : source) (name : string) : Prop :=
  (exists d ty, In (SDir d) (map snd src) /\ d_name d = D_module /\
     d_arg d = Some (EId (FullId None name) ty)) \/
  ((forall s, In s (map snd src) -> ~ is_dir D_module s) /\ name = ""%string).

(** The passes of the assembler do not touch names and scopes. *)
Definition same_scopes (m m' : module) : Prop :=
  md_name m' = md_name m /\ md_globals m' = md_globals m /\
  map (fun l => (ln_scopes l, ln_locals l)) (md_lines m') =
  map (fun l => (ln_scopes l, ln_locals l)) (md_lines m).

(** The names in an expression. *)
Fixpoint mentions (e : expr) (id : fullid) : Prop :=
  match e with
  | EId id' _ => id = id'
  | EBin _ l r => mentions l id \/ mentions r id
  | EUn _ a => mentions a id
  | ELit _ _ | ELabel _ _ => False
  end.
(** A name is a definition of the module itself. *)
Definition is_own (src : source) (k : Z) (id : fullid) : Prop :=
  match fi_module id with
  | None => exists t, denotes src k (fi_name id) t
  | Some mn => module_named src mn /\ exists t, defined src None (fi_name id) t
  end.
(** Names of other modules needed by the .equ directives of a file.  A name without module
    means the module without name. *)
Definition needs (src : source) (id : fullid) : Prop :=
  exists before labels d e after id', src = before ++ (labels, SDir d) :: after /\
    d_name d = D_equ /\ d_arg d = Some e /\ mentions e id' /\
    ~ is_own src (Z.of_nat (List.length before)) id' /\
    id = FullId (Some (match fi_module id' with Some mn => mn | None => ""%string end)) (fi_name id').
