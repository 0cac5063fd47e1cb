(** Specifications for the tokenizer and the parser. *)
From Verif Require Import Base ModelNumeric ModelMnemonic ModelExpr ModelAMode ModelState ModelInstr
  ModelStatement ModelToken ModelParse SpecNames.
Open Scope string_scope.
Open Scope Z_scope.

(** ** Numbers. *)
(** Position of a character in a string, counted from [n]. *)
Fixpoint index_of (c : ascii) (s : string) (n : Z) : option Z :=
  match s with
  | EmptyString => None
  | String d s' => if Ascii.eqb c d then Some n else index_of c s' (n + 1)
  end.
(** The digit a character stands for: its position in one of these. *)
Definition digit (base : Z) (c : ascii) (d : Z) : Prop :=
  d < base /\
  (index_of c "0123456789abcdef" 0 = Some d \/ index_of c "0123456789ABCDEF" 0 = Some d).
(** [numeral base s n v]: [s] consists of [n] digits and has the value [v]. *)
Inductive numeral (base : Z) : string -> Z -> Z -> Prop :=
| nu_nil : numeral base "" 0 0
| nu_cons : forall c d s n v, digit base c d -> numeral base s n v ->
    numeral base (String c s) (n + 1) (d * base ^ n + v).
(** The int that a numeral of value [v] is read as: the same modulo 2^32, but -1 for all from
    2^63 on. *)
Definition wraps_to (v w : Z) : Prop :=
  - 2 ^ 31 <= w < 2 ^ 31 /\ (v < 2 ^ 63 -> w mod 2 ^ 32 = v mod 2 ^ 32) /\ (2 ^ 63 <= v -> w = -1).
(** A numeral of the given base does not go on here. *)
Definition ends_numeral (base : Z) (s : string) : Prop :=
  forall c r d, s = String c r -> ~ digit base c d.

(** Types by number of digits, [byte_digits] of which make a byte. *)
Definition sized_type (byte_digits n : Z) (t : ntype) : Prop :=
  (n <= byte_digits /\ t = T_byte) \/
  (byte_digits < n <= 2 * byte_digits /\ t = T_word) \/
  (2 * byte_digits < n /\ t = T_long).

(** ** Lines. *)
Definition spaces (s : string) : Prop := forall a c b, s = a ++ String c b -> is_space c = true.
Definition no_char (c : ascii) (s : string) : Prop := forall a b, s <> a ++ String c b.

(** The same up to the case of identifiers. *)
Definition same_token (a b : token) : Prop :=
  match a, b with
  | TIdent s, TIdent t => same_name s t
  | _, _ => a = b
  end.

(** ** Expressions written out.  Levels: 0 sum, 1 product, 2 signed, 3 atom. *)
Definition punct (c : ascii) : token := TPunct (code c).
Definition binding (e : expr) : Z :=
  match e with
  | EBin (Op_plus | Op_minus) _ _ => 0
  | EBin (Op_mul | Op_div) _ _ => 1
  | EUn _ _ => 2
  | _ => 3
  end.
Definition binop_sign (op : binop) : token :=
  match op with
  | Op_plus => punct "+" | Op_minus => punct "-" | Op_mul => punct "*" | Op_div => punct "/"
  end.
Definition unop_sign (op : unop) : token :=
  match op with
  | Op_neg => punct "-" | Op_lowbyte => punct "<" | Op_highbyte => punct ">" | Op_bankbyte => punct "^"
  end.
(** Tokens of an expression, with parentheses only where [level] requires them; operators
    of equal binding group to the left. *)
Fixpoint written (level : Z) (e : expr) : list token :=
  let plain :=
    match e with
    | ELit v t => [TLit v t]
    | EId id t =>
        ((if ntype_eqb t T_long then [punct "@"] else [])
         ++ match fi_module id with
            | None => [TIdent (fi_name id)]
            | Some "" => [TPunct P_scope; TIdent (fi_name id)]
            | Some m => [TIdent m; TPunct P_scope; TIdent (fi_name id)]
            end)%list
    | EBin op l r => (written (binding e) l ++ binop_sign op :: written (binding e + 1) r)%list
    | EUn op a => unop_sign op :: written 2 a
    | ELabel _ _ => []
    end in
  if binding e <? level then (punct "(" :: plain ++ [punct ")"])%list else plain.

(** Expressions that source text can denote. *)
Fixpoint writable (e : expr) : Prop :=
  match e with
  | ELit v t => cast_to t v = v
  | EId _ t => t = T_word \/ t = T_long
  | EBin _ l r => writable l /\ writable r
  | EUn _ a => writable a
  | ELabel _ _ => False
  end.
(** Tokens that would continue an expression. *)
Definition continues (t : token) : Prop :=
  In t [punct "+"; punct "-"; punct "*"; punct "/"; TPunct P_scope].

(** The grammar of expressions, at the same levels. *)
Inductive grammar : Z -> list token -> expr -> Prop :=
| g_lit : forall v t, grammar 3 [TLit v t] (ELit (cast_to t v) t)
| g_name : forall n, grammar 3 [TIdent n] (EId (FullId None n) T_word)
| g_qualified : forall m n, grammar 3 [TIdent m; TPunct P_scope; TIdent n] (EId (FullId (Some m) n) T_word)
| g_global : forall n, grammar 3 [TPunct P_scope; TIdent n] (EId (FullId (Some "") n) T_word)
| g_long : forall ts id, grammar 3 ts (EId id T_word) -> hd_error ts <> Some (punct "(") ->
    grammar 3 (punct "@" :: ts) (EId id T_long)
| g_paren : forall ts e, grammar 0 ts e -> grammar 3 (punct "(" :: ts ++ [punct ")"])%list e
| g_unary : forall op ts a, grammar 2 ts a -> grammar 2 (unop_sign op :: ts) (EUn op a)
| g_product : forall op tl l tr r, op = Op_mul \/ op = Op_div -> grammar 1 tl l -> grammar 2 tr r ->
    grammar 1 (tl ++ binop_sign op :: tr)%list (EBin op l r)
| g_sum : forall op tl l tr r, op = Op_plus \/ op = Op_minus -> grammar 0 tl l -> grammar 1 tr r ->
    grammar 0 (tl ++ binop_sign op :: tr)%list (EBin op l r)
| g_atom : forall ts e, grammar 3 ts e -> grammar 2 ts e
| g_factor : forall ts e, grammar 2 ts e -> grammar 1 ts e
| g_term : forall ts e, grammar 1 ts e -> grammar 0 ts e.

(** Words separated by whitespace. *)
Inductive spaced : list string -> string -> Prop :=
| sp_one : forall w, spaced [w] w
| sp_more : forall w s ws line, spaces s -> s <> "" -> spaced ws line ->
    spaced (w :: ws) (w ++ s ++ line).
(** A word is the text of exactly this token. *)
Definition spells (w : string) (t : token) : Prop :=
  tokenize w = Ok [t; TEol] /\ no_char ";" w.

(** ** Lines of statements. *)
(** Ends with the only end-of-line token. *)
Definition ended (ts : list token) : Prop :=
  exists body, ts = (body ++ [TEol])%list /\ ~ In TEol body.

(** What a line consists of: labels, instructions and directives (braces being directives). *)
Inductive item := ILabel (name : string) (exported : bool) | IInstr (m : mnemonic) | IDir (d : directive_name).
(** Reads the items off the tokens; [fresh]: a label may stand here, [exported]: after
    `export`. *)
Fixpoint items (fresh exported : bool) (ts : list token) : list item :=
  match ts with
  | [] => []
  | TMnem m :: r => IInstr m :: items false false r
  | TDir d :: r => IDir d :: items false false r
  | TIdent s :: r =>
      if fresh then ILabel s exported :: items false false r else items false false r
  | TPunct p :: r =>
      if p =? code "{" then IDir D_begin :: items true false r
      else if p =? code "}" then IDir D_end :: items true false r
      else if p =? code ":" then items true false r
      else let e := fresh && (p =? P_export) in items e e r
  | _ :: r => items false false r
  end.
Definition parsed_item (p : parsed) : item :=
  match p with
  | PStmt (SInstr i) => IInstr (i_mnem i)
  | PStmt (SDir d) => IDir (d_name d)
  | PLabel n e => ILabel n e
  end.
(** A colon where a statement or label should start. *)
Definition stray_colon (ts : list token) : Prop :=
  exists a b, ts = (a ++ punct ":" :: b)%list /\
    (a = [] \/ exists a' t, a = (a' ++ [t])%list /\ In t [punct ":"; punct "{"; punct "}"]).
(** Some operand on the line is constant arithmetic that overflows int. *)
Definition overflowing_operand (ts : list token) : Prop :=
  exists pre suf e rest, ts = (pre ++ suf)%list /\ parse_expr suf = Ok (e, rest) /\
    eval null_ctx e = UB UB_overflow.
