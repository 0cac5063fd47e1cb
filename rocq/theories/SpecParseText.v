(** What a message about a line of source has to do. *)
From Verif Require Import Base ModelExpr ModelToken ModelParse ModelLocation ModelRomText ModelParseText.
Open Scope string_scope.
Open Scope list_scope.

(** Text and location forgotten. *)
Definition bare {A} (r : pres A) : res A :=
  match r with POk a => Ok a | PErr e => Err (re_kind e) | PUB u => UB u | PFuel => OutOfFuel end.

(** [part] is written somewhere in [text]. *)
Definition mentions (text part : string) : Prop := exists a b, text = (a ++ part ++ b)%string.

(** The words for a token in a message: what was read. *)
Definition shown (t : token) : string :=
  match t with
  | TIdent s => s
  | TLit v _ => dec_string v
  | TMnem m => ModelMnemonic.mnem_to_string m
  | TSuffix s => ModelMnemonic.suffix_to_string s
  | TDir d => ModelMnemonic.dir_to_string d
  | TPunct p => punct_to_string p
  | TEol => "end of line"
  end.

(** A message about a line whose first tokens are [pre] and [t]: it shows [t] (unless that is the name of a directive), or
    the instruction or directive before it that does not take what it is given, or it says that not all was read. *)
Inductive about_line (pre : list token) (t : token) : err -> string -> Prop :=
| about_token text : (forall d, t <> TDir d) -> mentions text (shown t) -> about_line pre t E_parse text
| about_hidden d text : t = TDir d -> mentions text "logic error?" -> about_line pre t E_parse text
| about_instruction m k text : In (TMnem m) pre -> In k [E_no_mode; E_suffix; E_convention] -> mentions text (shown (TMnem m)) -> about_line pre t k text
| about_directive d text : In (TDir d) pre -> mentions text (shown (TDir d)) -> about_line pre t E_parse text
| about_rest : tok_at_end t = false -> In (TPunct P_noreturn) pre \/ In (TPunct P_yields) pre ->
    about_line pre t E_logic "logic error: ParseInstruction() did not read to a line end".

(** What of a line cannot be read: a character that nothing starts with, or a whole word after a dot that means nothing. *)
Inductive unreadable (post : string) : string -> string -> Prop :=
| unread_character c : tokenize (String c post) = Err E_token -> c <> "."%char ->
    unreadable post (String c "") ("Unexpected character '" ++ String c "" ++ "' in input")%string
| unread_dotted w : (forall a c b, w = (a ++ String c b)%string -> is_ident_char c = true) -> (forall c rest, post = String c rest -> is_ident_char c = false) ->
    ModelMnemonic.to_directive_name (String "." w) = None -> ModelMnemonic.to_suffix (String "." w) = None ->
    unreadable post (String "." w) ("Unrecognized dotted name '" ++ String "." w ++ "' in input")%string.

(** [text] ends with [tail]. *)
Definition ends (text tail : string) : Prop := exists a, text = (a ++ tail)%string.
(** The endings of a message that ask for a size, with the sizes that they ask for. *)
Definition requests : list (string * ModelNumeric.ntype) :=
  [(" must be a byte", ModelNumeric.T_byte); (" must be a word", ModelNumeric.T_word); (" must be a long", ModelNumeric.T_long);
   (" must be a byte or word", ModelNumeric.T_byte); (" must be a byte or word", ModelNumeric.T_word);
   (" must be a word or long", ModelNumeric.T_word); (" must be a word or long", ModelNumeric.T_long)]%string.
