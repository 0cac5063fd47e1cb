(** Programs that differ only in the names they use and in how they are laid out. *)
From Verif Require Import Base ModelExpr ModelState ModelToken ModelInstr ModelStatement ModelModule ModelAssembler SpecScope.
Open Scope string_scope.
Open Scope list_scope.

(** New names for old ones: different names stay different, and the empty module name (that of
    a file without .module) is kept. *)
Definition naming (f : string -> string) : Prop := (forall a b, f a = f b -> a = b) /\ f "" = "".

Definition rename_id (f : string -> string) (i : fullid) : fullid := FullId (option_map f (fi_module i)) (f (fi_name i)).
Fixpoint rename_expr (f : string -> string) (e : expr) : expr :=
  match e with
  | ELit v t => ELit v t
  | EId id t => EId (rename_id f id) t
  | EBin op l r => EBin op (rename_expr f l) (rename_expr f r)
  | EUn op a => EUn op (rename_expr f a)
  | ELabel n h => ELabel n (rename_expr f h)
  end.
Definition rename_statement (f : string -> string) (s : statement) : statement :=
  match s with
  | SInstr i => SInstr (Instr (i_mnem i) (i_suffix i) (i_mode i) (option_map (rename_expr f) (i_arg1 i)) (option_map (rename_expr f) (i_arg2 i)) (i_ret i))
  | SDir d => SDir (Directive (d_name d) (option_map (rename_expr f) (d_arg d)) (d_flags d) (d_ret d) (map (rename_expr f) (d_list d)))
  end.
(** Labels and statements, with the names changed. *)
Definition rename_source (f : string -> string) (src : source) : source :=
  map (fun ls => (map (fun nx => (f (fst nx), snd nx)) (fst ls), rename_statement f (snd ls))) src.

(** The second file has the labels and statements of the first, in the same order, with the
    names changed.  The lines may be divided, spaced and commented in any way. *)
Definition renamed (f : string -> string) (file file' : list string) : Prop :=
  exists src, reads file src /\ reads file' (rename_source f src).

(** What can be observed of two runs: the writes, the error, and what the assembled program
    tells the disassembler. *)
Definition same_results (f : string -> string) (x y : wres assembler) : Prop :=
  fst x = fst y /\
  match snd x, snd y with
  | Ok a, Ok b =>
      (forall p, assembler_contains a p = assembler_contains b p) /\ jump_targets a = jump_targets b /\
      jump_target_return_conventions a = jump_target_return_conventions b /\
      (forall p, assembler_name_for_address (as_mods b) p = option_map (rename_id f) (assembler_name_for_address (as_mods a) p)) /\
      (forall m n v, assembler_ctx (as_mods a) (as_names a) (FullId (Some m) n) = Ok v <-> assembler_ctx (as_mods b) (as_names b) (FullId (Some (f m)) (f n)) = Ok v)
  | Err e, Err e' => e = e'
  | UB u, UB u' => u = u'
  | OutOfFuel, OutOfFuel => True
  | _, _ => False
  end.

(** The tokens of a line, with the names changed. *)
Definition rename_token (f : string -> string) (t : token) : token := match t with TIdent s => TIdent (f s) | t => t end.
(** Names of processor modes are kept: they have a meaning. *)
Definition keeps_modes (f : string -> string) : Prop := forall s, flags_from_name s <> None -> f s = s.
(** Line by line the same tokens, with the names changed, or in both no tokens at all. *)
Definition rewritten (f : string -> string) (file file' : list string) : Prop :=
  Forall2 (fun l l' => (exists ts, tokenize l = Ok ts /\ tokenize l' = Ok (map (rename_token f) ts)) \/
                       exists e, tokenize l = Err e /\ tokenize l' = Err e) file file'.
