(** Tokens.  Transcribes nsasm/token.{h,cc}. *)
From Verif Require Import Base ModelNumeric ModelMnemonic.
Open Scope string_scope.
Open Scope Z_scope.

(** nsasm/token.h:19-29.  A Punctuation is its numeric value: the character code for a
    one character token (token.h:46-47), or one of these. *)
Definition P_none : Z := 0.
Definition P_scope : Z := 257.
Definition P_export : Z := 258.
Definition P_noreturn : Z := 259.
Definition P_yields : Z := 260.
Definition P_plusplus : Z := 261.
Definition P_plusplusplus : Z := 262.
Definition P_minusminus : Z := 263.
Definition P_minusminusminus : Z := 264.

(** nsasm/token.h:34-90: the variant value_, plus type_ for literals (type_ is T_unknown for
    every other kind).  Locations are not modelled. *)
Inductive token :=
| TIdent (s : string)
| TLit (v : Z) (t : ntype)
| TMnem (m : mnemonic)
| TSuffix (s : suffix)
| TDir (d : directive_name)
| TPunct (p : Z)
| TEol.

(** Comparison with a punctuation value or character: nsasm/token.h:163-187. *)
Definition is_punct (p : Z) (t : token) : bool :=
  match t with TPunct q => q =? p | _ => false end.
Definition is_char (c : ascii) (t : token) : bool := is_punct (code c) t.

(** Accessors, nsasm/token.h:53-71. *)
Definition tok_ident (t : token) : option string :=
  match t with TIdent s => Some s | _ => None end.
Definition tok_lit (t : token) : option (Z * ntype) :=
  match t with TLit v ty => Some (v, ty) | _ => None end.
Definition tok_mnem (t : token) : option mnemonic :=
  match t with TMnem m => Some m | _ => None end.
Definition tok_suffix (t : token) : option suffix :=
  match t with TSuffix s => Some s | _ => None end.
Definition tok_dir (t : token) : option directive_name :=
  match t with TDir d => Some d | _ => None end.
Definition is_eol (t : token) : bool := match t with TEol => true | _ => false end.

(** nsasm/token.cc:12-15. *)
Definition is_hex_digit (c : ascii) : bool :=
  in_range "0" "9" c || in_range "a" "f" c || in_range "A" "F" c.
(** nsasm/token.cc:17. *)
Definition is_decimal_digit (c : ascii) : bool := in_range "0" "9" c.
(** nsasm/token.cc:19. *)
Definition is_binary_digit (c : ascii) : bool := Ascii.eqb c "0" || Ascii.eqb c "1".
(** nsasm/token.cc:21-23. *)
Definition is_ident_first (c : ascii) : bool :=
  in_range "a" "z" c || in_range "A" "Z" c || Ascii.eqb c "_".
(** nsasm/token.cc:25-27. *)
Definition is_ident_char (c : ascii) : bool := is_decimal_digit c || is_ident_first c.

(** absl::StripLeadingAsciiWhitespace. *)
Fixpoint strip_leading (s : string) : string :=
  match s with
  | String c s' => if is_space c then strip_leading s' else s
  | EmptyString => EmptyString
  end.

(** The digit and identifier loops, e.g. nsasm/token.cc:134-137: the longest prefix of
    characters satisfying [f], and the rest. *)
Fixpoint span (f : ascii -> bool) (s : string) : string * string :=
  match s with
  | String c s' =>
      if f c then let (a, b) := span f s' in (String c a, b) else (EmptyString, s)
  | EmptyString => (EmptyString, EmptyString)
  end.

(** Value of one digit as read by strtol. *)
Definition digit_value (c : ascii) : Z :=
  if in_range "0" "9" c then code c - 48
  else if in_range "a" "f" c then code c - 87
  else code c - 55.
(** Mathematical value of a digit string. *)
Fixpoint digits_value (base acc : Z) (s : string) : Z :=
  match s with
  | String c s' => digits_value base (acc * base + digit_value c) s'
  | EmptyString => acc
  end.
(** strtol on a non-empty string of digits, assigned to an int: strtol saturates at
    LONG_MAX (64 bit long), the assignment reduces modulo 2^32.
    nsasm/token.cc:138, 159, 177. *)
Definition strtol_int (base : Z) (s : string) : Z :=
  to_int32 (Z.min (digits_value base 0 s) 9223372036854775807).

(** nsasm/token.cc:139-146. *)
Definition hex_type (digits : string) : ntype :=
  if (String.length digits <=? 2)%nat then T_byte
  else if (String.length digits <=? 4)%nat then T_word else T_long.
(** nsasm/token.cc:160-165. *)
Definition bin_type (digits : string) : ntype :=
  if (String.length digits <=? 8)%nat then T_byte
  else if (String.length digits <=? 16)%nat then T_word else T_long.

(** nsasm/token.cc:109-113. *)
Definition is_single_punct (c : ascii) : bool :=
  match c with
  | "(" | ")" | "[" | "]" | "," | ":" | "#" | "+" | "-" | "*" | "/" | "@" | "{" | "}"
  | ">" | "<" | "^" => true
  | _ => false
  end%char.

(** nsasm/token.cc:215-241: classification of a scanned word. *)
Definition word_token (w : string) : token :=
  match to_mnemonic w with
  | Some m => TMnem m
  | None =>
      let reg :=
        match w with
        | String c EmptyString =>
            match ascii_upper c with
            | ("A" | "S" | "X" | "Y")%char => Some (ascii_upper c)
            | _ => None
            end
        | _ => None
        end in
      match reg with
      | Some c => TPunct (code c)
      | None =>
          if String.eqb (str_lower w) "export" then TPunct P_export
          else if String.eqb (str_lower w) "noreturn" then TPunct P_noreturn
          else if String.eqb (str_lower w) "yields" then TPunct P_yields
          else TIdent w
      end
  end.

(** nsasm/token.cc:183-203: classification of a scanned dotted name. *)
Definition dotted_token (w : string) : res token :=
  match to_directive_name w with
  | Some d => Ok (TDir d)
  | None => match to_suffix w with Some s => Ok (TSuffix s) | None => Err E_token end
  end.

(** One iteration of the loop of nsasm/token.cc:69-247 on a string that is non-empty,
    does not start with whitespace and does not start with ';'. *)
Definition next_token (s : string) : res (token * string) :=
  match s with
  | String "+" (String "+" (String "+" r)) => Ok (TPunct P_plusplusplus, r)
  | String "-" (String "-" (String "-" r)) => Ok (TPunct P_minusminusminus, r)
  | String ":" (String ":" r) => Ok (TPunct P_scope, r)
  | String "+" (String "+" r) => Ok (TPunct P_plusplus, r)
  | String "-" (String "-" r) => Ok (TPunct P_minusminus, r)
  | EmptyString => UB UB_oob
  | String c r =>
      if is_single_punct c then Ok (TPunct (code c), r)
      else
        let hex :=
          match s with
          | String "$" (String d r') => if is_hex_digit d then Some (String d r') else None
          | String "0" (String ("x" | "X") (String d r')) =>
              if is_hex_digit d then Some (String d r') else None
          | _ => None
          end in
        match hex with
        | Some r' =>
            let (digits, rest) := span is_hex_digit r' in
            Ok (TLit (strtol_int 16 digits) (hex_type digits), rest)
        | None =>
            let bin :=
              match s with
              | String "%" (String d r') => if is_binary_digit d then Some (String d r') else None
              | _ => None
              end in
            match bin with
            | Some r' =>
                let (digits, rest) := span is_binary_digit r' in
                Ok (TLit (strtol_int 2 digits) (bin_type digits), rest)
            | None =>
                if is_decimal_digit c then
                  let (digits, rest) := span is_decimal_digit s in
                  Ok (TLit (strtol_int 10 digits) T_unknown, rest)
                else if Ascii.eqb c "." then
                  let (w, rest) := span is_ident_char r in
                  let* t := dotted_token (String "." w) in
                  Ok (t, rest)
                else if is_ident_first c then
                  let (w, rest) := span is_ident_char r in
                  Ok (word_token (String c w), rest)
                else Err E_token
            end
        end
  end.

(** nsasm/token.cc:67-248. *)
Fixpoint tokenize_fuel (fuel : nat) (s : string) : res (list token) :=
  match fuel with
  | O => OutOfFuel
  | S f =>
      match strip_leading s with
      | EmptyString => Ok [TEol]
      | String c r =>
          if Ascii.eqb c ";" then Ok [TEol]
          else
            let* (t, rest) := next_token (String c r) in
            let* ts := tokenize_fuel f rest in
            Ok (t :: ts)
      end
  end.
Definition tokenize (s : string) : res (list token) := tokenize_fuel (S (String.length s)) s.

(** nsasm/token.cc:250-271. *)
Definition punct_to_string (p : Z) : string :=
  if p =? P_scope then "::" else if p =? P_export then "export"
  else if p =? P_noreturn then "noreturn" else if p =? P_yields then "yields"
  else if p =? P_plusplus then "++" else if p =? P_plusplusplus then "+++"
  else if p =? P_minusminus then "--" else if p =? P_minusminusminus then "---"
  else String (ascii_of_N (Z.to_N p)) "".
