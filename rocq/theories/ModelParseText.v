(** The errors of a line of source as they are reported: their texts and their locations.  Transcribes nsasm/token.cc,
    nsasm/parse.cc and DeduceMode of nsasm/addressing_mode.cc once more, with the messages and every SetLocation. *)
From Verif Require Import Base ModelNumeric ModelMnemonic ModelExpr ModelAMode ModelOpcode
  ModelState ModelInstr ModelToken ModelStatement ModelParse ModelAddress ModelMap ModelRom ModelTools ModelLocation ModelRomText ModelInteractive.
Open Scope string_scope.
Open Scope Z_scope.

(** ErrorOr<T>, nsasm/error.h:41-83, for functions that loop. *)
Inductive pres (A : Type) := POk (a : A) | PErr (e : rerror) | PUB (u : ub) | PFuel.
Arguments POk {A} a.
Arguments PErr {A} e.
Arguments PUB {A} u.
Arguments PFuel {A}.
(** NSASM_RETURN_IF_ERROR, nsasm/error.h:87-93. *)
Definition pbind {A B} (r : pres A) (f : A -> pres B) : pres B :=
  match r with POk a => f a | PErr e => PErr e | PUB u => PUB u | PFuel => PFuel end.
Notation "'let^' x ':=' r 'in' k" := (pbind r (fun x => k)) (at level 200, x pattern, r at level 100, k at level 200, right associativity).
(** Error(text).SetLocation(location). *)
Definition err_at {A} (kind : err) (text : string) (l : location) : pres A := PErr (RError kind text (loc_update no_location l)).

(** nsasm/token.cc:31-64.  A directive name is none of the kinds asked for there. *)
Definition token_to_string (t : token) : string :=
  match t with
  | TEol => "end of line"
  | TMnem m => "mnemonic " ++ mnem_to_string m
  | TSuffix s => "suffix " ++ suffix_to_string s
  | TLit v _ => "literal " ++ dec_string v
  | TIdent s => "identifier " ++ s
  | TPunct p =>
      let spelling := punct_to_string p in
      if (3 <? String.length spelling)%nat then "keyword `" ++ spelling ++ "`"
      else match spelling with
           | String c EmptyString => if in_range "A" "Z" c then "register " ++ spelling else "symbol `" ++ spelling ++ "`"
           | _ => "symbol `" ++ spelling ++ "`"
           end
  | TDir _ => "logic error?"
  end.

(** nsasm/token.cc:183-203. *)
Definition t_dotted_token (l : location) (w : string) : pres token :=
  match to_directive_name w with
  | Some d => POk (TDir d)
  | None => match to_suffix w with Some s => POk (TSuffix s) | None => err_at E_token ("Unrecognized dotted name '" ++ w ++ "' in input") l end
  end.
(** nsasm/token.cc:69-247, as [next_token]. *)
Definition t_next_token (l : location) (s : string) : pres (token * string) :=
  match s with
  | String "+" (String "+" (String "+" r)) => POk (TPunct P_plusplusplus, r)
  | String "-" (String "-" (String "-" r)) => POk (TPunct P_minusminusminus, r)
  | String ":" (String ":" r) => POk (TPunct P_scope, r)
  | String "+" (String "+" r) => POk (TPunct P_plusplus, r)
  | String "-" (String "-" r) => POk (TPunct P_minusminus, r)
  | EmptyString => PUB UB_oob
  | String c r =>
      if is_single_punct c then POk (TPunct (code c), r)
      else
        let hex :=
          match s with
          | String "$" (String d r') => if is_hex_digit d then Some (String d r') else None
          | String "0" (String ("x" | "X") (String d r')) => if is_hex_digit d then Some (String d r') else None
          | _ => None
          end in
        match hex with
        | Some r' => let (digits, rest) := span is_hex_digit r' in POk (TLit (strtol_int 16 digits) (hex_type digits), rest)
        | None =>
            let bin := match s with String "%" (String d r') => if is_binary_digit d then Some (String d r') else None | _ => None end in
            match bin with
            | Some r' => let (digits, rest) := span is_binary_digit r' in POk (TLit (strtol_int 2 digits) (bin_type digits), rest)
            | None =>
                if is_decimal_digit c then let (digits, rest) := span is_decimal_digit s in POk (TLit (strtol_int 10 digits) T_unknown, rest)
                else if Ascii.eqb c "." then let (w, rest) := span is_ident_char r in let^ t := t_dotted_token l (String "." w) in POk (t, rest)
                else if is_ident_first c then let (w, rest) := span is_ident_char r in POk (word_token (String c w), rest)
                else err_at E_token ("Unexpected character '" ++ String c "" ++ "' in input") l
            end
        end
  end.
(** nsasm/token.cc:67-248. *)
Fixpoint t_tokenize_fuel (fuel : nat) (l : location) (s : string) : pres (list token) :=
  match fuel with
  | O => PFuel
  | S f =>
      match strip_leading s with
      | EmptyString => POk [TEol]
      | String c r =>
          if Ascii.eqb c ";" then POk [TEol]
          else let^ (t, rest) := t_next_token l (String c r) in let^ ts := t_tokenize_fuel f l rest in POk (t :: ts)
      end
  end.
Definition t_tokenize (l : location) (s : string) : pres (list token) := t_tokenize_fuel (S (String.length s)) l s.

(** pos->front(). *)
Definition t_front (ts : list token) : pres token := match ts with t :: _ => POk t | [] => PUB UB_oob end.
(** nsasm/parse.cc:21-28. *)
Definition t_at_end (ts : list token) : pres bool := let^ t := t_front ts in POk (tok_at_end t).
Definition t_at_end_or_suffix (ts : list token) : pres bool := let^ t := t_front ts in POk (tok_at_end_or_suffix t).
(** nsasm/parse.cc:36-43. *)
Definition t_consume (l : location) (c : ascii) (message : string) (ts : list token) : pres (list token) :=
  match ts with
  | [] => PUB UB_oob
  | t :: ts' => if is_char c t then POk ts' else err_at E_parse ("Expected " ++ message ++ ", found " ++ token_to_string t) l
  end.
(** nsasm/parse.cc:45-51. *)
Definition t_confirm_at_end (l : location) (message : string) (ts : list token) : pres unit :=
  let^ t := t_front ts in if tok_at_end t then POk tt else err_at E_parse ("Unexpected " ++ token_to_string t ++ " " ++ message) l.
(** nsasm/parse.cc:53-60. *)
Definition t_confirm_at_end_or_suffix (l : location) (message : string) (ts : list token) : pres unit :=
  let^ t := t_front ts in if tok_at_end_or_suffix t then POk tt else err_at E_parse ("Unexpected " ++ token_to_string t ++ " " ++ message) l.
(** nsasm/parse.cc:62-73. *)
Definition t_confirm_legal_register (l : location) (allowed : list ascii) (message : string) (ts : list token) : pres unit :=
  let^ t := t_front ts in
  if is_register t then
    if existsb (fun c => is_char c t) allowed then POk tt
    else err_at E_parse ("Register " ++ (match t with TPunct p => punct_to_string p | _ => "" end) ++ " cannot be used " ++ message) l
  else POk tt.
(** nsasm/parse.cc:76-90. *)
Definition t_mode (l : location) (ts : list token) : pres (flags * list token) :=
  match ts with
  | [] => PUB UB_oob
  | TIdent s :: ts' =>
      match flags_from_name s with Some f => POk (f, ts') | None => err_at E_parse (String """" (s ++ String """" " does not name a flag state")) l end
  | t :: _ => err_at E_parse ("Expected mode name, found " ++ token_to_string t) l
  end.

(** nsasm/parse.cc:167-207, as [p_ident]. *)
Definition t_ident (l : location) (long : bool) (ts : list token) : option (pres (expr * list token)) :=
  let ty := if long then T_long else T_word in
  match ts with
  | [] => Some (PUB UB_oob)
  | TIdent s1 :: ts1 =>
      Some (match ts1 with
            | [] => PUB UB_oob
            | t1 :: ts2 =>
                if is_punct P_scope t1 then
                  match ts2 with
                  | [] => PUB UB_oob
                  | TIdent s2 :: ts3 => POk (EId (FullId (Some s1) s2) ty, ts3)
                  | t :: _ => err_at E_parse ("Expected identifier after '::', found " ++ token_to_string t) l
                  end
                else POk (EId (FullId None s1) ty, ts1)
            end)
  | t :: ts1 =>
      if is_punct P_scope t then
        Some (match ts1 with
              | [] => PUB UB_oob
              | TIdent s :: ts2 => POk (EId (FullId (Some "") s) ty, ts2)
              | t' :: _ => err_at E_parse ("Expected identifier after '::', found " ++ token_to_string t') l
              end)
      else None
  end.

(** nsasm/parse.cc:92-217. *)
Fixpoint t_expr (l : location) (fuel : nat) (ts : list token) : pres (expr * list token) :=
  match fuel with
  | O => PFuel
  | S f => let^ (t, ts1) := t_term l f ts in t_expr_loop l f t ts1
  end
with t_expr_loop (l : location) (fuel : nat) (acc : expr) (ts : list token) : pres (expr * list token) :=
  match fuel with
  | O => PFuel
  | S f =>
      match ts with
      | [] => PUB UB_oob
      | t :: ts' =>
          if tok_at_end t then POk (acc, ts)
          else match addop t with
               | None => POk (acc, ts)
               | Some op => let^ (r, ts1) := t_term l f ts' in t_expr_loop l f (EBin op acc r) ts1
               end
      end
  end
with t_term (l : location) (fuel : nat) (ts : list token) : pres (expr * list token) :=
  match fuel with
  | O => PFuel
  | S f => let^ (t, ts1) := t_factor l f ts in t_term_loop l f t ts1
  end
with t_term_loop (l : location) (fuel : nat) (acc : expr) (ts : list token) : pres (expr * list token) :=
  match fuel with
  | O => PFuel
  | S f =>
      match ts with
      | [] => PUB UB_oob
      | t :: ts' =>
          if tok_at_end t then POk (acc, ts)
          else match mulop t with
               | None => POk (acc, ts)
               | Some op => let^ (r, ts1) := t_factor l f ts' in t_term_loop l f (EBin op acc r) ts1
               end
      end
  end
with t_factor (l : location) (fuel : nat) (ts : list token) : pres (expr * list token) :=
  match fuel with
  | O => PFuel
  | S f =>
      match ts with
      | [] => PUB UB_oob
      | t :: ts' =>
          match unaryop t with
          | Some op => let^ (a, ts1) := t_factor l f ts' in POk (EUn op a, ts1)
          | None => t_comp l f ts
          end
      end
  end
with t_comp (l : location) (fuel : nat) (ts : list token) : pres (expr * list token) :=
  match fuel with
  | O => PFuel
  | S f =>
      match ts with
      | [] => PUB UB_oob
      | TLit v ty :: ts' => POk (mk_lit v ty, ts')
      | t :: ts' =>
          if is_char "@" t then
            match t_ident l true ts' with
            | Some r => r
            | None => let^ t' := t_front ts' in err_at E_parse ("Expected identifier after '@', found " ++ token_to_string t') l
            end
          else
            match t_ident l false ts with
            | Some r => r
            | None =>
                if is_char "(" t then
                  let^ (e, ts1) := t_expr l f ts' in
                  let^ ts2 := t_consume l ")" "close parenthesis" ts1 in
                  POk (e, ts2)
                else err_at E_parse ("Expected expression, found " ++ token_to_string t) l
            end
      end
  end.
Definition t_parse_expr (l : location) (ts : list token) : pres (expr * list token) := t_expr l (6 * List.length ts + 6) ts.

(** The messages of nsasm/addressing_mode.cc:90-197. *)
Definition must_be (mode_name argument : string) (m : mnemonic) (what : string) : string :=
  mode_name ++ argument ++ mnem_to_string m ++ what.
(** The messages of nsasm/addressing_mode.cc:201-423, for arguments that DeduceMode refuses. *)
Definition deduce_text (m : mnemonic) (s : samode) (arg1 arg2 : option expr) : string :=
  let address mode_name what := must_be mode_name " address argument to " m what in
  let takes_not what := mnem_to_string m ++ " does not take " ++ what in
  if is_branch_mnemonic m then "Branch instruction " ++ mnem_to_string m ++ " requires a named branch target."
  else if argument_is_address s && ntype_eqb (type_opt arg1) T_unknown
  then "Address argument to " ++ mnem_to_string m ++ " must have an explicit size"
  else
  match s with
  | SA_imp => mnem_to_string m ++ " requires arguments"
  | SA_acc => takes_not "A as an argument"
  | SA_imm =>
      match m with
      | M_cop | M_rep | M_sep | M_brk | M_wdm => must_be "Immediate" " argument to " m " must be a byte"
      | M_pea => must_be "Immediate" " argument to " m " must be a word"
      | _ => takes_not "an immediate value as an argument"
      end
  | SA_dir =>
      if is_alu_mnemonic m then address "Direct" " must have explicit size"
      else match m with
      | M_asl | M_bit | M_cpx | M_cpy | M_dec | M_inc | M_ldx | M_ldy | M_lsr | M_rol
      | M_ror | M_stx | M_sty | M_stz | M_trb | M_tsb => address "Direct" " must be a byte or word"
      | M_jmp => address "Direct" " must be a word or long"
      | M_pei => address "Direct" " must be a byte"
      | M_jsr => address "Direct" " must be a word"
      | M_jsl => address "Direct" " must be a long"
      | _ => takes_not "a direct address as an argument"
      end
  | SA_dir_x =>
      if is_alu_mnemonic m then address "Direct indexed X" " must have explicit size"
      else match m with
      | M_asl | M_bit | M_dec | M_inc | M_ldy | M_lsr | M_rol | M_ror | M_stz => address "Direct indexed X" " must be a byte or word"
      | M_sty => address "Direct indexed X" " must be a byte"
      | _ => takes_not "a direct indexed X address as an argument"
      end
  | SA_dir_y =>
      match m with
      | M_ldx => address "Direct indexed Y" " must be a byte or word"
      | M_stx => address "Direct indexed Y" " must be a byte"
      | _ => if is_alu_mnemonic m then address "Direct indexed Y" " must be a word" else takes_not "a direct indexed Y address as an argument"
      end
  | SA_ind =>
      if is_alu_mnemonic m then address "Indirect" " must be a byte"
      else match m with M_jmp => address "Indirect" " must be a word" | _ => takes_not "an indirect address as an argument" end
  | SA_ind_x =>
      if is_alu_mnemonic m then address "Indexed indirect" " must be a byte"
      else match m with M_jmp | M_jsr => address "Indexed indirect" " must be a word" | _ => takes_not "an indexed indirect address as an argument" end
  | SA_ind_y => if is_alu_mnemonic m then address "Indirect indexed" " must be a byte" else takes_not "an indirect indexed address as an argument"
  | SA_lng =>
      if is_alu_mnemonic m then address "Indirect long" " must be a byte"
      else match m with M_jmp => address "Indirect long" " must be a word" | _ => takes_not "an indirect long address as an argument" end
  | SA_lng_y => if is_alu_mnemonic m then address "Indirect long indexed" " must be a byte" else takes_not "an indirect long indexed address as an argument"
  | SA_stk => if is_alu_mnemonic m then must_be "Stack offset" " argument to " m " must be a byte" else takes_not "a stack offset as an argument"
  | SA_stk_y =>
      if is_alu_mnemonic m then must_be "Indirect indexed stack offset" " argument to " m " must be a byte"
      else takes_not "a indirect indexed stack offset as an argument"
  | SA_mov => match m with M_mvn | M_mvp => must_be "Page" " arguments to " m " must be bytes" | _ => takes_not "two arguments" end
  end.

(** nsasm/parse.cc:219-238. *)
Definition t_create_instruction (l : location) (m : mnemonic) (s : suffix) (sam : samode) (arg1 arg2 : option expr) : pres instr :=
  match deduce_mode m sam arg1 arg2 with
  | Ok am =>
      if negb (suffix_eqb s S_none) && match flag_controlling_size m with NotVariable => true | _ => false end
      then err_at E_suffix ("Instruction `" ++ mnem_to_string m ++ "` does not support a length suffix") l
      else POk (Instr m s am arg1 arg2 RC_default)
  | Err e => err_at e (deduce_text m sam arg1 arg2) l
  | UB u => PUB u
  | OutOfFuel => PFuel
  end.
Definition t_finish (l : location) (m : mnemonic) (sfx : suffix) (sam : samode) (arg1 arg2 : option expr) (ts : list token) : pres (instr * list token) :=
  let^ i := t_create_instruction l m sfx sam arg1 arg2 in POk (i, ts).

(** nsasm/parse.cc:376-402. *)
Definition t_bare (l : location) (m : mnemonic) (sfx : suffix) (ts : list token) : pres (instr * list token) :=
  let^ (arg1, ts) := t_parse_expr l ts in
  let^ e := t_at_end_or_suffix ts in
  if e then t_finish l m sfx SA_dir (Some arg1) None ts
  else
    let^ ts := t_consume l "," "comma or end of line" ts in
    let^ _ := t_confirm_legal_register l ["X"; "Y"; "S"]%char "with direct indexing" ts in
    let^ t := t_front ts in
    if is_char "X" t then
      let ts := tl ts in
      let^ _ := t_confirm_at_end_or_suffix l "after indexed argument" ts in
      t_finish l m sfx SA_dir_x (Some arg1) None ts
    else if is_char "Y" t then
      let ts := tl ts in
      let^ _ := t_confirm_at_end_or_suffix l "after indexed argument" ts in
      t_finish l m sfx SA_dir_y (Some arg1) None ts
    else
      let^ ts := t_consume l "S" "X, Y, or S register" ts in
      let^ _ := t_confirm_at_end_or_suffix l "after stack relative argument" ts in
      t_finish l m sfx SA_stk (Some arg1) None ts.

(** nsasm/parse.cc:268-285, 287-303, 316-373: the operands that start with '#', '[' or '('; [ts] is what follows that token. *)
Definition t_immediate (l : location) (m : mnemonic) (sfx : suffix) (ts : list token) : pres (instr * list token) :=
  let^ (arg1, ts) := t_parse_expr l ts in
  let^ e := t_at_end_or_suffix ts in
  if e then t_finish l m sfx SA_imm (Some arg1) None ts
  else
    let^ ts := t_consume l "," "comma or end of line" ts in
    let^ ts := t_consume l "#" "#" ts in
    let^ (arg2, ts) := t_parse_expr l ts in
    let^ _ := t_confirm_at_end_or_suffix l "after immediate arguments" ts in
    t_finish l m sfx SA_mov (Some arg1) (Some arg2) ts.
Definition t_bracket (l : location) (m : mnemonic) (sfx : suffix) (ts : list token) : pres (instr * list token) :=
  let^ (arg1, ts) := t_parse_expr l ts in
  let^ ts := t_consume l "]" "close bracket" ts in
  let^ e := t_at_end_or_suffix ts in
  if e then t_finish l m sfx SA_lng (Some arg1) None ts
  else
    let^ ts := t_consume l "," "comma or end of line" ts in
    let^ _ := t_confirm_legal_register l ["Y"%char] "with indirect long indexing" ts in
    let^ ts := t_consume l "Y" "register Y" ts in
    let^ _ := t_confirm_at_end_or_suffix l "after indirect long indexed argument" ts in
    t_finish l m sfx SA_lng_y (Some arg1) None ts.
Definition t_paren (l : location) (m : mnemonic) (sfx : suffix) (backup ts : list token) : pres (instr * list token) :=
  let^ (arg1, ts) := t_parse_expr l ts in
  let^ t := t_front ts in
  if is_char "," t then
    let ts := tl ts in
    let^ _ := t_confirm_legal_register l ["X"; "S"]%char "with indexed indirect mode" ts in
    let^ t := t_front ts in
    if is_char "X" t then
      let^ ts := t_consume l ")" "close parenthesis" (tl ts) in
      let^ _ := t_confirm_at_end_or_suffix l "after indexed indirect argument" ts in
      t_finish l m sfx SA_ind_x (Some arg1) None ts
    else
      let^ ts := t_consume l "S" "X or S register" ts in
      let^ ts := t_consume l ")" "close parenthesis" ts in
      let^ ts := t_consume l "," "comma after stack relative indirect" ts in
      let^ _ := t_confirm_legal_register l ["Y"%char] "with stack relative indirect indexing" ts in
      let^ ts := t_consume l "Y" "register Y" ts in
      let^ _ := t_confirm_at_end_or_suffix l "after stack relative indirect indexed argument" ts in
      t_finish l m sfx SA_stk_y (Some arg1) None ts
  else if is_char ")" t then
    let ts := tl ts in
    let^ e := t_at_end_or_suffix ts in
    if e then t_finish l m sfx SA_ind (Some arg1) None ts
    else
      let^ t := t_front ts in
      if is_char "," t then
        let ts := tl ts in
        let^ _ := t_confirm_legal_register l ["Y"%char] "with indirect indexing" ts in
        let^ ts := t_consume l "Y" "register Y" ts in
        let^ _ := t_confirm_at_end_or_suffix l "after indirect indexed argument" ts in
        t_finish l m sfx SA_ind_y (Some arg1) None ts
      else t_bare l m sfx backup
  else t_bare l m sfx ts.

(** nsasm/parse.cc:241-403. *)
Definition t_operand (l : location) (m : mnemonic) (sfx : suffix) (ts : list token) : pres (instr * list token) :=
  let^ e := t_at_end_or_suffix ts in
  if e then t_finish l m sfx SA_imp None None ts
  else
    let^ _ := t_confirm_legal_register l ["A"%char] "directly" ts in
    let^ t := t_front ts in
    if is_char "A" t then
      let ts := tl ts in
      let^ _ := t_confirm_at_end_or_suffix l "after A operand" ts in
      t_finish l m sfx SA_acc None None ts
    else if is_char "#" t then t_immediate l m sfx (tl ts)
    else if is_char "[" t then t_bracket l m sfx (tl ts)
    else if is_char "(" t then t_paren l m sfx ts (tl ts)
    else t_bare l m sfx ts.
Definition t_parse_instruction_core (l : location) (ts : list token) : pres (instr * list token) :=
  match ts with
  | [] => PUB UB_oob
  | TMnem m :: ts0 =>
      let^ t := t_front ts0 in
      match t with TSuffix s => t_operand l m s (tl ts0) | _ => t_operand l m S_none ts0 end
  | _ :: _ => PErr (RError E_logic "logic error: ParseInstruction() called on non-mnemonic" no_location)
  end.
(** nsasm/parse.cc:405-417. *)
Definition t_return_convention (l : location) (ts : list token) : pres (retconv * list token) :=
  let^ t := t_front ts in
  if is_punct P_noreturn t then POk (RC_noreturn, tl ts)
  else if is_punct P_yields t then let^ (f, ts') := t_mode l (tl ts) in POk (RC_yields f, ts')
  else POk (RC_default, ts).
(** nsasm/parse.cc:419-432. *)
Definition t_parse_instruction (l : location) (ts : list token) : pres (instr * list token) :=
  let^ (i, ts) := t_parse_instruction_core l ts in
  let^ (rc, ts) := t_return_convention l ts in
  if negb (rc_is_default rc) && negb (mnem_eqb (i_mnem i) M_jsl) && negb (mnem_eqb (i_mnem i) M_jsr)
  then PErr (RError E_convention ("return calling convention not supported on instruction " ++ mnem_to_string (i_mnem i)) no_location)
  else POk (Instr (i_mnem i) (i_suffix i) (i_mode i) (i_arg1 i) (i_arg2 i) rc, ts).

(** nsasm/parse.cc:467-480. *)
Fixpoint t_list (l : location) (fuel : nat) (acc : list expr) (ts : list token) : pres (list expr * list token) :=
  match fuel with
  | O => PFuel
  | S f =>
      let^ (e, ts) := t_parse_expr l ts in
      let acc := (acc ++ [e])%list in
      let^ b := t_at_end ts in
      if b then POk (acc, ts)
      else let^ ts := t_consume l "," "comma or end of line" ts in t_list l f acc ts
  end.
(** nsasm/parse.cc:490-500. *)
Definition t_mode_part (l : location) (d : directive_name) (arg : option expr) (ts : list token) : pres (directive * list token) :=
  let^ (f, ts) := t_mode l ts in
  let^ _ := match directive_type_by_name d with DT_flag_arg => t_confirm_at_end l "after flag state" ts | _ => POk tt end in
  let^ (rc, ts) := t_return_convention l ts in
  let^ _ := t_confirm_at_end l "after flag state" ts in
  POk (Directive d arg f rc [], ts).
(** nsasm/parse.cc:434-502. *)
Definition t_parse_directive (l : location) (ts : list token) : pres (directive * list token) :=
  match ts with
  | [] => PUB UB_oob
  | TDir d :: ts =>
      let dt := directive_type_by_name d in
      match dt with
      | DT_no_arg => let^ _ := t_confirm_at_end l "after no-arg directive" ts in POk (Directive d None default_flags RC_default [], ts)
      | DT_single_arg | DT_constant_arg | DT_name_arg =>
          let^ (arg1, ts) := t_parse_expr l ts in
          if match dt with DT_constant_arg => requires_lookup arg1 | _ => false end
          then err_at E_parse (dir_to_string d ++ " directive requires a constant value argument") l
          else if match dt with DT_name_arg => match simple_identifier arg1 with None => true | Some _ => false end | _ => false end
          then err_at E_parse (dir_to_string d ++ " directive requires a simple name argument") l
          else let^ _ := t_confirm_at_end l "after directive argument" ts in POk (Directive d (Some arg1) default_flags RC_default [], ts)
      | DT_list_arg => let^ (l0, ts) := t_list l (S (List.length ts)) [] ts in POk (Directive d None default_flags RC_default l0, ts)
      | DT_remote_arg => let^ (arg, ts) := t_parse_expr l ts in t_mode_part l d (Some arg) ts
      | DT_flag_arg | DT_calling_convention_arg => t_mode_part l d None ts
      end
  | _ :: _ => PErr (RError E_logic "logic error: ParseDirective() called on non-directive-name" no_location)
  end.

(** nsasm/parse.cc:528-545, as [p_label]. *)
Definition t_label (l : location) (ts : list token) : pres (list parsed * list token * bool) :=
  let^ t := t_front ts in
  let^ (exported, ts) :=
    if is_punct P_export t then
      let^ t' := t_front (tl ts) in
      match tok_ident t' with
      | None => err_at E_parse ("Expected label name after `export` keyword but found " ++ token_to_string t') l
      | Some _ => POk (true, tl ts)
      end
    else POk (false, ts) in
  match ts with
  | TIdent s :: ts' =>
      match ts' with
      | t' :: ts'' => if is_char ":" t' then POk ([PLabel s exported], ts'', true) else POk ([PLabel s exported], ts', false)
      | [] => POk ([PLabel s exported], ts', false)
      end
  | _ => POk ([], ts, false)
  end.
(** nsasm/parse.cc:516-592. *)
Fixpoint t_parse_loop (l : location) (fuel : nat) (acc : list parsed) (ts : list token) : pres (list parsed) :=
  match fuel with
  | O => PFuel
  | S f =>
      match ts with
      | [] => POk acc
      | _ :: _ =>
          let^ (lab, ts, cont) := t_label l ts in
          let acc := (acc ++ lab)%list in
          if cont then t_parse_loop l f acc ts
          else
            let^ t := t_front ts in
            if tok_at_end t then POk acc
            else if is_char "{" t || is_char "}" t then
              let d := Directive (if is_char "{" t then D_begin else D_end) None default_flags RC_default [] in
              t_parse_loop l f (acc ++ [PStmt (SDir d)])%list (tl ts)
            else match tok_dir t with
            | Some _ =>
                let^ (d, ts) := t_parse_directive l ts in
                let^ b := t_at_end ts in
                if b then t_parse_loop l f (acc ++ [PStmt (SDir d)])%list (tl ts)
                else PErr (RError E_logic "logic error: ParseDirective() did not read to a line end" no_location)
            | None =>
                match tok_mnem t with
                | None => err_at E_parse ("Expected mnemonic or directive but found " ++ token_to_string t) l
                | Some _ =>
                    let^ (i, ts) := t_parse_instruction l ts in
                    let^ b := t_at_end ts in
                    if b then t_parse_loop l f (acc ++ [PStmt (SInstr i)])%list (tl ts)
                    else PErr (RError E_logic "logic error: ParseInstruction() did not read to a line end" no_location)
                end
            end
      end
  end.
Definition t_parse (l : location) (ts : list token) : pres (list parsed) := t_parse_loop l (S (List.length ts)) [] ts.
(** nsasm/parse.cc:594-602. *)
Definition t_parse_expression (s : string) : pres expr :=
  let^ ts := t_tokenize no_location s in
  let^ (e, ts) := t_parse_expr no_location ts in
  let^ _ := t_confirm_at_end no_location "after A operand" ts in
  POk e.

(** nsasm/module.cc:109-112: a line of a file. *)
Definition t_line (l : location) (s : string) : pres (list parsed) :=
  let^ ts := t_tokenize l s in t_parse l ts.
(** util/interactive_parse.cc:20-43: what is printed for a line. *)
Definition t_answer (line : string) : pres (list string) :=
  match t_line no_location line with
  | POk es => POk (map entity_line es)
  | PErr e => POk [rerror_to_string e]
  | PUB u => PUB u
  | PFuel => PFuel
  end.
