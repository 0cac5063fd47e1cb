(** The parser.  Transcribes nsasm/parse.{h,cc}.  A TokenSpan is the list of remaining
    tokens; front() of an empty span is undefined.  Functions return the value together
    with the remaining tokens (the new value of *pos). *)
From Verif Require Import Base ModelNumeric ModelMnemonic ModelExpr ModelAMode ModelOpcode
  ModelState ModelInstr ModelToken ModelStatement.
Open Scope string_scope.
Open Scope Z_scope.

(** pos->front(). *)
Definition front (ts : list token) : res token :=
  match ts with t :: _ => Ok t | [] => UB UB_oob end.

(** nsasm/parse.cc:21-23. *)
Definition tok_at_end (t : token) : bool := is_eol t || is_char ":" t.
Definition at_end (ts : list token) : res bool := let* t := front ts in Ok (tok_at_end t).
(** nsasm/parse.cc:25-28. *)
Definition tok_at_end_or_suffix (t : token) : bool :=
  is_eol t || is_char ":" t || is_punct P_yields t || is_punct P_noreturn t.
Definition at_end_or_suffix (ts : list token) : res bool :=
  let* t := front ts in Ok (tok_at_end_or_suffix t).
(** nsasm/parse.cc:32-34. *)
Definition is_register (t : token) : bool :=
  is_char "A" t || is_char "S" t || is_char "X" t || is_char "Y" t.

(** nsasm/parse.cc:36-43. *)
Definition consume (c : ascii) (ts : list token) : res (list token) :=
  match ts with
  | [] => UB UB_oob
  | t :: ts' => if is_char c t then Ok ts' else Err E_parse
  end.
(** nsasm/parse.cc:45-51. *)
Definition confirm_at_end (ts : list token) : res unit :=
  let* b := at_end ts in if b then Ok tt else Err E_parse.
(** nsasm/parse.cc:53-60. *)
Definition confirm_at_end_or_suffix (ts : list token) : res unit :=
  let* b := at_end_or_suffix ts in if b then Ok tt else Err E_parse.
(** nsasm/parse.cc:62-73. *)
Definition confirm_legal_register (allowed : list ascii) (ts : list token) : res unit :=
  let* t := front ts in
  if is_register t then
    if existsb (fun c => is_char c t) allowed then Ok tt else Err E_parse
  else Ok tt.

(** nsasm/parse.cc:76-90. *)
Definition p_mode (ts : list token) : res (flags * list token) :=
  match ts with
  | [] => UB UB_oob
  | TIdent s :: ts' =>
      match flags_from_name s with Some f => Ok (f, ts') | None => Err E_parse end
  | _ :: _ => Err E_parse
  end.

(** nsasm/parse.cc:99-105, 123-129. *)
Definition addop (t : token) : option binop :=
  if is_char "+" t then Some Op_plus else if is_char "-" t then Some Op_minus else None.
Definition mulop (t : token) : option binop :=
  if is_char "*" t then Some Op_mul else if is_char "/" t then Some Op_div else None.
(** nsasm/parse.cc:141-150. *)
Definition unaryop (t : token) : option unop :=
  if is_char "-" t then Some Op_neg
  else if is_char "<" t then Some Op_lowbyte
  else if is_char ">" t then Some Op_highbyte
  else if is_char "^" t then Some Op_bankbyte
  else None.

(** nsasm/parse.cc:167-207, the part of Comp after a possible '@': an identifier,
    qualified or not.  [None]: the front token starts no identifier. *)
Definition p_ident (long : bool) (ts : list token) : option (res (expr * list token)) :=
  let ty := if long then T_long else T_word in
  match ts with
  | [] => Some (UB UB_oob)
  | TIdent s1 :: ts1 =>
      Some (match ts1 with
            | [] => UB UB_oob
            | t1 :: ts2 =>
                if is_punct P_scope t1 then
                  match ts2 with
                  | [] => UB UB_oob
                  | TIdent s2 :: ts3 => Ok (EId (FullId (Some s1) s2) ty, ts3)
                  | _ :: _ => Err E_parse
                  end
                else Ok (EId (FullId None s1) ty, ts1)
            end)
  | t :: ts1 =>
      if is_punct P_scope t then
        Some (match ts1 with
              | [] => UB UB_oob
              | TIdent s :: ts2 => Ok (EId (FullId (Some "") s) ty, ts2)
              | _ :: _ => Err E_parse
              end)
      else None
  end.

(** nsasm/parse.cc:92-217: Expr, its loop, Term, its loop, Factor, Comp. *)
Fixpoint p_expr (fuel : nat) (ts : list token) : res (expr * list token) :=
  match fuel with
  | O => OutOfFuel
  | S f => let* (t, ts1) := p_term f ts in p_expr_loop f t ts1
  end
with p_expr_loop (fuel : nat) (acc : expr) (ts : list token) : res (expr * list token) :=
  match fuel with
  | O => OutOfFuel
  | S f =>
      match ts with
      | [] => UB UB_oob
      | t :: ts' =>
          if tok_at_end t then Ok (acc, ts)
          else match addop t with
               | None => Ok (acc, ts)
               | Some op => let* (r, ts1) := p_term f ts' in p_expr_loop f (EBin op acc r) ts1
               end
      end
  end
with p_term (fuel : nat) (ts : list token) : res (expr * list token) :=
  match fuel with
  | O => OutOfFuel
  | S f => let* (t, ts1) := p_factor f ts in p_term_loop f t ts1
  end
with p_term_loop (fuel : nat) (acc : expr) (ts : list token) : res (expr * list token) :=
  match fuel with
  | O => OutOfFuel
  | S f =>
      match ts with
      | [] => UB UB_oob
      | t :: ts' =>
          if tok_at_end t then Ok (acc, ts)
          else match mulop t with
               | None => Ok (acc, ts)
               | Some op => let* (r, ts1) := p_factor f ts' in p_term_loop f (EBin op acc r) ts1
               end
      end
  end
with p_factor (fuel : nat) (ts : list token) : res (expr * list token) :=
  match fuel with
  | O => OutOfFuel
  | S f =>
      match ts with
      | [] => UB UB_oob
      | t :: ts' =>
          match unaryop t with
          | Some op => let* (a, ts1) := p_factor f ts' in Ok (EUn op a, ts1)
          | None => p_comp f ts
          end
      end
  end
with p_comp (fuel : nat) (ts : list token) : res (expr * list token) :=
  match fuel with
  | O => OutOfFuel
  | S f =>
      match ts with
      | [] => UB UB_oob
      | TLit v ty :: ts' => Ok (mk_lit v ty, ts')
      | t :: ts' =>
          if is_char "@" t then
            match p_ident true ts' with
            | Some r => r
            | None => Err E_parse
            end
          else
            match p_ident false ts with
            | Some r => r
            | None =>
                if is_char "(" t then
                  let* (e, ts1) := p_expr f ts' in
                  let* ts2 := consume ")" ts1 in
                  Ok (e, ts2)
                else Err E_parse
            end
      end
  end.

(** Expr(pos) with enough fuel for any token list (see Proofs: never exhausted). *)
Definition parse_expr (ts : list token) : res (expr * list token) :=
  p_expr (6 * List.length ts + 6) ts.

(** nsasm/parse.cc:219-238. *)
Definition create_instruction (m : mnemonic) (s : suffix) (sam : samode)
           (arg1 arg2 : option expr) : res instr :=
  let* am := deduce_mode m sam arg1 arg2 in
  if negb (suffix_eqb s S_none)
     && match flag_controlling_size m with NotVariable => true | _ => false end
  then Err E_suffix
  else Ok (Instr m s am arg1 arg2 RC_default).

(** nsasm/parse.cc:376-402: the bare expression alternative. *)
Definition p_bare (m : mnemonic) (sfx : suffix) (ts : list token)
  : res (instr * list token) :=
  let fin (sam : samode) (arg1 : expr) (ts : list token) : res (instr * list token) :=
    let* i := create_instruction m sfx sam (Some arg1) None in Ok (i, ts) in
  let* (arg1, ts) := parse_expr ts in
  let* e := at_end_or_suffix ts in
  if e then fin SA_dir arg1 ts
  else
    let* ts := consume "," ts in
    let* _ := confirm_legal_register ["X"; "Y"; "S"]%char ts in
    let* t := front ts in
    if is_char "X" t then
      let* ts := consume "X" ts in
      let* _ := confirm_at_end_or_suffix ts in
      fin SA_dir_x arg1 ts
    else if is_char "Y" t then
      let* ts := consume "Y" ts in
      let* _ := confirm_at_end_or_suffix ts in
      fin SA_dir_y arg1 ts
    else
      let* ts := consume "S" ts in
      let* _ := confirm_at_end_or_suffix ts in
      fin SA_stk arg1 ts.

(** nsasm/parse.cc:241-403.  In the '(' case [backup_pos] is the token list at the '('. *)
Definition parse_instruction_core (ts : list token) : res (instr * list token) :=
  match ts with
  | [] => UB UB_oob
  | TMnem m :: ts0 =>
      let fin (sfx : suffix) (sam : samode) (arg1 arg2 : option expr) (ts : list token)
        : res (instr * list token) :=
        let* i := create_instruction m sfx sam arg1 arg2 in Ok (i, ts) in
      let* t := front ts0 in
      let '(sfx, ts) := match t with TSuffix s => (s, tl ts0) | _ => (S_none, ts0) end in
      let* e := at_end_or_suffix ts in
      if e then fin sfx SA_imp None None ts
      else
        let* _ := confirm_legal_register ["A"%char] ts in
        let* t := front ts in
        if is_char "A" t then
          let ts := tl ts in
          let* _ := confirm_at_end_or_suffix ts in
          fin sfx SA_acc None None ts
        else if is_char "#" t then
          let* (arg1, ts) := parse_expr (tl ts) in
          let* e := at_end_or_suffix ts in
          if e then fin sfx SA_imm (Some arg1) None ts
          else
            let* ts := consume "," ts in
            let* ts := consume "#" ts in
            let* (arg2, ts) := parse_expr ts in
            let* _ := confirm_at_end_or_suffix ts in
            fin sfx SA_mov (Some arg1) (Some arg2) ts
        else if is_char "[" t then
          let* (arg1, ts) := parse_expr (tl ts) in
          let* ts := consume "]" ts in
          let* e := at_end_or_suffix ts in
          if e then fin sfx SA_lng (Some arg1) None ts
          else
            let* ts := consume "," ts in
            let* _ := confirm_legal_register ["Y"%char] ts in
            let* ts := consume "Y" ts in
            let* _ := confirm_at_end_or_suffix ts in
            fin sfx SA_lng_y (Some arg1) None ts
        else if is_char "(" t then
          let backup := ts in
          let* (arg1, ts) := parse_expr (tl ts) in
          let* t := front ts in
          if is_char "," t then
            let ts := tl ts in
            let* _ := confirm_legal_register ["X"; "S"]%char ts in
            let* t := front ts in
            if is_char "X" t then
              let* ts := consume ")" (tl ts) in
              let* _ := confirm_at_end_or_suffix ts in
              fin sfx SA_ind_x (Some arg1) None ts
            else
              let* ts := consume "S" ts in
              let* ts := consume ")" ts in
              let* ts := consume "," ts in
              let* _ := confirm_legal_register ["Y"%char] ts in
              let* ts := consume "Y" ts in
              let* _ := confirm_at_end_or_suffix ts in
              fin sfx SA_stk_y (Some arg1) None ts
          else if is_char ")" t then
            let ts := tl ts in
            let* e := at_end_or_suffix ts in
            if e then fin sfx SA_ind (Some arg1) None ts
            else
              let* t := front ts in
              if is_char "," t then
                let ts := tl ts in
                let* _ := confirm_legal_register ["Y"%char] ts in
                let* ts := consume "Y" ts in
                let* _ := confirm_at_end_or_suffix ts in
                fin sfx SA_ind_y (Some arg1) None ts
              else p_bare m sfx backup
          else p_bare m sfx ts   (* *pos is not restored here in the source *)
        else p_bare m sfx ts
  | _ :: _ => Err E_logic
  end.

(** nsasm/parse.cc:405-417. *)
Definition parse_return_convention (ts : list token) : res (retconv * list token) :=
  let* t := front ts in
  if is_punct P_noreturn t then Ok (RC_noreturn, tl ts)
  else if is_punct P_yields t then
    let* (f, ts') := p_mode (tl ts) in Ok (RC_yields f, ts')
  else Ok (RC_default, ts).

(** nsasm/parse.cc:419-432. *)
Definition parse_instruction (ts : list token) : res (instr * list token) :=
  let* (i, ts) := parse_instruction_core ts in
  let* (rc, ts) := parse_return_convention ts in
  if negb (rc_is_default rc) && negb (mnem_eqb (i_mnem i) M_jsl)
     && negb (mnem_eqb (i_mnem i) M_jsr)
  then Err E_convention
  else Ok (Instr (i_mnem i) (i_suffix i) (i_mode i) (i_arg1 i) (i_arg2 i) rc, ts).

(** nsasm/parse.cc:467-480. *)
Fixpoint p_list (fuel : nat) (acc : list expr) (ts : list token)
  : res (list expr * list token) :=
  match fuel with
  | O => OutOfFuel
  | S f =>
      let* (e, ts) := parse_expr ts in
      let acc := (acc ++ [e])%list in
      let* b := at_end ts in
      if b then Ok (acc, ts)
      else
        let* ts := consume "," ts in
        p_list f acc ts
  end.

(** nsasm/parse.cc:434-502. *)
Definition parse_directive (ts : list token) : res (directive * list token) :=
  match ts with
  | [] => UB UB_oob
  | TDir d :: ts =>
      let dt := directive_type_by_name d in
      let mode_part (arg : option expr) (ts : list token) : res (directive * list token) :=
        let* (f, ts) := p_mode ts in
        let* _ := match dt with DT_flag_arg => confirm_at_end ts | _ => Ok tt end in
        let* (rc, ts) := parse_return_convention ts in
        let* _ := confirm_at_end ts in
        Ok (Directive d arg f rc [], ts) in
      match dt with
      | DT_no_arg =>
          let* _ := confirm_at_end ts in
          Ok (Directive d None default_flags RC_default [], ts)
      | DT_single_arg | DT_constant_arg | DT_name_arg =>
          let* (arg1, ts) := parse_expr ts in
          if match dt with DT_constant_arg => requires_lookup arg1 | _ => false end
          then Err E_parse
          else if match dt with
                  | DT_name_arg =>
                      match simple_identifier arg1 with None => true | Some _ => false end
                  | _ => false
                  end
          then Err E_parse
          else
            let* _ := confirm_at_end ts in
            Ok (Directive d (Some arg1) default_flags RC_default [], ts)
      | DT_list_arg =>
          let* (l, ts) := p_list (S (List.length ts)) [] ts in
          Ok (Directive d None default_flags RC_default l, ts)
      | DT_remote_arg =>
          let* (arg, ts) := parse_expr ts in mode_part (Some arg) ts
      | DT_flag_arg | DT_calling_convention_arg => mode_part None ts
      end
  | _ :: _ => Err E_logic
  end.

(** nsasm/parse.h:11-29 and the variant of nsasm/parse.h:33-34.  Labels built by Parse always
    carry a name (nsasm/parse.cc:538-539), plus_or_minus_ is always P_none. *)
Inductive parsed :=
| PLabel (name : string) (exported : bool)
| PStmt (s : statement).

(** nsasm/parse.cc:528-545: optional `export`, optional label.  Returns the new result
    vector, remaining tokens, and whether the loop continues after "label:". *)
Definition p_label (ts : list token) : res (list parsed * list token * bool) :=
  let* t := front ts in
  let* (exported, ts) :=
    if is_punct P_export t then
      let* t' := front (tl ts) in
      match tok_ident t' with
      | None => Err E_parse
      | Some _ => Ok (true, tl ts)
      end
    else Ok (false, ts) in
  match ts with
  | TIdent s :: ts' =>
      match ts' with
      | t' :: ts'' =>
          if is_char ":" t' then Ok ([PLabel s exported], ts'', true)
          else Ok ([PLabel s exported], ts', false)
      | [] => Ok ([PLabel s exported], ts', false)
      end
  | _ => Ok ([], ts, false)
  end.

(** nsasm/parse.cc:516-592. *)
Fixpoint parse_loop (fuel : nat) (acc : list parsed) (ts : list token) : res (list parsed) :=
  match fuel with
  | O => OutOfFuel
  | S f =>
      match ts with
      | [] => Ok acc
      | _ :: _ =>
          let* (lab, ts, cont) := p_label ts in
          let acc := (acc ++ lab)%list in
          if cont then parse_loop f acc ts
          else
            let* t := front ts in
            if tok_at_end t then Ok acc
            else if is_char "{" t || is_char "}" t then
              let d := Directive (if is_char "{" t then D_begin else D_end) None default_flags
                                 RC_default [] in
              parse_loop f (acc ++ [PStmt (SDir d)])%list (tl ts)
            else match tok_dir t with
            | Some _ =>
                let* (d, ts) := parse_directive ts in
                let* b := at_end ts in
                if b then parse_loop f (acc ++ [PStmt (SDir d)])%list (tl ts)
                else Err E_logic
            | None =>
                match tok_mnem t with
                | None => Err E_parse
                | Some _ =>
                    let* (i, ts) := parse_instruction ts in
                    let* b := at_end ts in
                    if b then parse_loop f (acc ++ [PStmt (SInstr i)])%list (tl ts)
                    else Err E_logic
                end
            end
      end
  end.
Definition parse (ts : list token) : res (list parsed) := parse_loop (S (List.length ts)) [] ts.

(** nsasm/parse.cc:594-602. *)
Definition parse_expression (s : string) : res expr :=
  let* ts := tokenize s in
  let* (e, ts) := parse_expr ts in
  let* _ := confirm_at_end ts in
  Ok e.
