(** Properties of the tokenizer. *)
From Verif Require Import Base ModelNumeric ModelMnemonic ModelToken.
From Verif Require Import BaseProofs.
Local Open Scope string_scope.
Local Open Scope Z_scope.

(** ** [next_token] with boolean tests. *)
Definition hd_is (c : ascii) (s : string) : bool :=
  match s with String d _ => Ascii.eqb d c | EmptyString => false end.
Definition hd_sat (f : ascii -> bool) (s : string) : bool :=
  match s with String d _ => f d | EmptyString => false end.
Definition str_tl (s : string) : string :=
  match s with String _ r => r | EmptyString => EmptyString end.
Definition take_lit (base : Z) (isd : ascii -> bool) (ty : string -> ntype) (s : string)
  : token * string :=
  let (digits, rest) := span isd s in (TLit (strtol_int base digits) (ty digits), rest).
Definition next_alt (s : string) : res (token * string) :=
  match s with
  | EmptyString => UB UB_oob
  | String c r =>
      if (Ascii.eqb c "+" && hd_is "+" r && hd_is "+" (str_tl r))%bool
      then Ok (TPunct P_plusplusplus, str_tl (str_tl r))
      else if (Ascii.eqb c "-" && hd_is "-" r && hd_is "-" (str_tl r))%bool
      then Ok (TPunct P_minusminusminus, str_tl (str_tl r))
      else if (Ascii.eqb c ":" && hd_is ":" r)%bool then Ok (TPunct P_scope, str_tl r)
      else if (Ascii.eqb c "+" && hd_is "+" r)%bool then Ok (TPunct P_plusplus, str_tl r)
      else if (Ascii.eqb c "-" && hd_is "-" r)%bool then Ok (TPunct P_minusminus, str_tl r)
      else if is_single_punct c then Ok (TPunct (code c), r)
      else if (Ascii.eqb c "$" && hd_sat is_hex_digit r)%bool
      then Ok (take_lit 16 is_hex_digit hex_type r)
      else if (Ascii.eqb c "0" && (hd_is "x" r || hd_is "X" r) && hd_sat is_hex_digit (str_tl r))%bool
      then Ok (take_lit 16 is_hex_digit hex_type (str_tl r))
      else if (Ascii.eqb c "%" && hd_sat is_binary_digit r)%bool
      then Ok (take_lit 2 is_binary_digit bin_type r)
      else if is_decimal_digit c then Ok (take_lit 10 is_decimal_digit (fun _ => T_unknown) s)
      else if Ascii.eqb c "." then
        let (w, rest) := span is_ident_char r in
        let* t := dotted_token (String "." w) in
        Ok (t, rest)
      else if is_ident_first c then
        let (w, rest) := span is_ident_char r in
        Ok (word_token (String c w), rest)
      else Err E_token
  end.

Lemma span_step : forall f c r, f c = true ->
  span f (String c r) = (let (a, b) := span f r in (String c a, b)).
Proof. intros f c r H. cbn. rewrite H. reflexivity. Qed.

Local Opaque span dotted_token word_token strtol_int.
Lemma next_token_eq : forall s, next_token s = next_alt s.
Proof.
  intros [|c r]; [reflexivity|].
  destruct c as [[] [] [] [] [] [] [] []]; try reflexivity.
  all: try (cbn; unfold take_lit; destruct (span is_decimal_digit (String _ r)); reflexivity).
  all: destruct r as [|d r]; [try reflexivity|].
  all: try (destruct d as [[] [] [] [] [] [] [] []]; try reflexivity;
            cbn; unfold take_lit; match goal with |- context [span ?f ?x] => destruct (span f x) end;
            reflexivity).
  - destruct d as [[] [] [] [] [] [] [] []]; try reflexivity.
    destruct r as [|e r]; [reflexivity|].
    destruct e as [[] [] [] [] [] [] [] []]; reflexivity.
  - destruct d as [[] [] [] [] [] [] [] []]; try reflexivity.
    destruct r as [|e r]; [reflexivity|].
    destruct e as [[] [] [] [] [] [] [] []]; reflexivity.
  - unfold next_alt, take_lit.
    destruct d as [[] [] [] [] [] [] [] []];
      try (cbn; destruct (span is_decimal_digit (String "0" (String _ r))); reflexivity).
    + destruct r as [|e r]; [cbn; destruct (span is_decimal_digit _); reflexivity|].
      cbn. destruct (is_hex_digit e); [destruct (span is_hex_digit _)|destruct (span is_decimal_digit _)];
        reflexivity.
    + destruct r as [|e r]; [cbn; destruct (span is_decimal_digit _); reflexivity|].
      cbn. destruct (is_hex_digit e); [destruct (span is_hex_digit _)|destruct (span is_decimal_digit _)];
        reflexivity.
Qed.

(** ** Strings. *)
Lemma sapp_assoc : forall a b c : string, (a ++ b) ++ c = a ++ (b ++ c).
Proof. intros a b c. induction a; cbn; congruence. Qed.
Lemma sapp_nil_r : forall a : string, a ++ "" = a.
Proof. intros a. induction a; cbn; congruence. Qed.
Lemma slen_app : forall a b, String.length (a ++ b) = (String.length a + String.length b)%nat.
Proof. intros a b. induction a; cbn; congruence. Qed.

(** ** Spans. *)
Fixpoint str_all (f : ascii -> bool) (s : string) : bool :=
  match s with EmptyString => true | String c s' => f c && str_all f s' end.

Local Transparent span.
Lemma span_split : forall f s a b, span f s = (a, b) ->
  s = a ++ b /\ str_all f a = true /\ hd_sat f b = false.
Proof.
  intros f s. induction s as [|c s IH]; intros a b H; cbn in H.
  - injection H as <- <-. repeat split.
  - destruct (f c) eqn:E.
    + destruct (span f s) as [a' b'] eqn:Es. injection H as <- <-.
      destruct (IH a' b' eq_refl) as (-> & H2 & H3). cbn. rewrite E. repeat split; assumption.
    + injection H as <- <-. cbn. repeat split; assumption.
Qed.
Lemma span_exact : forall f a b, str_all f a = true -> hd_sat f b = false ->
  span f (a ++ b) = (a, b).
Proof.
  intros f a b. induction a as [|c a IH]; cbn; intros H1 H2.
  - destruct b as [|d b]; [reflexivity|]. cbn in *. rewrite H2. reflexivity.
  - apply andb_true_iff in H1. destruct H1 as [H0 H1]. rewrite H0, IH by assumption. reflexivity.
Qed.
Lemma span_app : forall f s r, hd_sat f r = false ->
  span f (s ++ r) = (let (a, b) := span f s in (a, b ++ r)).
Proof.
  intros f s r H. destruct (span f s) as [a b] eqn:E. apply span_split in E.
  destruct E as (-> & H1 & H2). rewrite sapp_assoc. apply span_exact; [exact H1|].
  destruct b; [exact H|exact H2].
Qed.

(** ** One token. *)
(** A character after which a token cannot continue and with which none starts. *)
Definition separator (c : ascii) : bool := is_space c || Ascii.eqb c ";".

Lemma separator_facts : forall c, separator c = true ->
  is_hex_digit c = false /\ is_binary_digit c = false /\ is_decimal_digit c = false /\
  is_ident_char c = false /\ Ascii.eqb c "+" = false /\ Ascii.eqb c "-" = false /\
  Ascii.eqb c ":" = false /\ Ascii.eqb c "x" = false /\ Ascii.eqb c "X" = false.
Proof.
  intros c H. destruct c as [[] [] [] [] [] [] [] []]; try discriminate H; repeat split.
Qed.

Lemma hd_is_app : forall c s r, hd_is c r = false -> hd_is c (s ++ r) = hd_is c s.
Proof. intros c [|d s] r H; [exact H|reflexivity]. Qed.
Lemma hd_sat_app : forall f s r, hd_sat f r = false -> hd_sat f (s ++ r) = hd_sat f s.
Proof. intros f [|d s] r H; [exact H|reflexivity]. Qed.
Lemma str_tl_app : forall s r, s <> "" -> str_tl (s ++ r) = str_tl s ++ r.
Proof. intros [|d s] r H; [congruence|reflexivity]. Qed.

Definition add_rest (r : string) (x : res (token * string)) : res (token * string) :=
  match x with Ok (t, rest) => Ok (t, rest ++ r) | y => y end.

Lemma take_lit_app : forall base f ty s r, hd_sat f r = false ->
  Ok (take_lit base f ty (s ++ r)) = add_rest r (Ok (take_lit base f ty s)).
Proof.
  intros base f ty s r H. unfold take_lit. rewrite span_app by exact H.
  destruct (span f s) as [a b]. reflexivity.
Qed.

Lemma next_sep : forall s c r, s <> "" -> separator c = true ->
  next_token (s ++ String c r) = add_rest (String c r) (next_token s).
Proof.
  intros s c r Hs Hc. rewrite !next_token_eq.
  destruct (separator_facts c Hc) as (F1 & F2 & F3 & F4 & F5 & F6 & F7 & F8 & F9).
  destruct s as [|d s]; [congruence|].
  set (q := String c r).
  assert (K : forall a, Ascii.eqb c a = false -> hd_is a q = false) by (intros a Ha; exact Ha).
  assert (K1 : hd_is "+" q = false) by (apply K; exact F5).
  assert (K2 : hd_is "-" q = false) by (apply K; exact F6).
  assert (K3 : hd_is ":" q = false) by (apply K; exact F7).
  assert (K4 : hd_is "x" q = false) by (apply K; exact F8).
  assert (K5 : hd_is "X" q = false) by (apply K; exact F9).
  assert (S1 : hd_sat is_hex_digit q = false) by exact F1.
  assert (S2 : hd_sat is_binary_digit q = false) by exact F2.
  assert (S3 : hd_sat is_decimal_digit q = false) by exact F3.
  assert (S4 : hd_sat is_ident_char q = false) by exact F4.
  change (String d s ++ q) with (String d (s ++ q)).
  assert (T : forall a f, (hd_is a s && f (str_tl (s ++ q)))%bool = (hd_is a s && f (str_tl s ++ q))%bool).
  { intros a f. destruct s as [|e s']; reflexivity. }
  assert (T2 : forall a, hd_is a s = true -> str_tl (s ++ q) = str_tl s ++ q).
  { intros a Ha. apply str_tl_app. intros ->. discriminate Ha. }
  unfold next_alt.
  rewrite !(hd_is_app _ s q) by assumption. rewrite !(hd_sat_app _ s q) by assumption.
  repeat rewrite <- andb_assoc.
  rewrite (T "+"%char (hd_is "+")), (T "-"%char (hd_is "-")).
  rewrite !(hd_is_app _ (str_tl s) q) by assumption.
  destruct (Ascii.eqb d "+" && (hd_is "+" s && hd_is "+" (str_tl s)))%bool eqn:E1.
  { rewrite !andb_true_iff in E1. destruct E1 as (_ & E1 & E1').
    rewrite (T2 _ E1), str_tl_app; [reflexivity|]. intros E. rewrite E in E1'. discriminate E1'. }
  destruct (Ascii.eqb d "-" && (hd_is "-" s && hd_is "-" (str_tl s)))%bool eqn:E2.
  { rewrite !andb_true_iff in E2. destruct E2 as (_ & E2 & E2').
    rewrite (T2 _ E2), str_tl_app; [reflexivity|]. intros E. rewrite E in E2'. discriminate E2'. }
  destruct (Ascii.eqb d ":" && hd_is ":" s)%bool eqn:E3.
  { rewrite andb_true_iff in E3. rewrite (T2 _ (proj2 E3)). reflexivity. }
  destruct (Ascii.eqb d "+" && hd_is "+" s)%bool eqn:E4.
  { rewrite andb_true_iff in E4. rewrite (T2 _ (proj2 E4)). reflexivity. }
  destruct (Ascii.eqb d "-" && hd_is "-" s)%bool eqn:E5.
  { rewrite andb_true_iff in E5. rewrite (T2 _ (proj2 E5)). reflexivity. }
  destruct (is_single_punct d) eqn:E6; [reflexivity|].
  destruct (Ascii.eqb d "$" && hd_sat is_hex_digit s)%bool eqn:E7.
  { apply take_lit_app. exact S1. }
  assert (E8' : ((hd_is "x" s || hd_is "X" s) && hd_sat is_hex_digit (str_tl (s ++ q)))%bool =
                ((hd_is "x" s || hd_is "X" s) && hd_sat is_hex_digit (str_tl s))%bool).
  { destruct s as [|e s']; [reflexivity|]. cbn [str_tl append].
    change (String e (s' ++ q)) with (String e s' ++ q). cbn [str_tl append].
    rewrite (hd_sat_app _ s' q) by exact S1. reflexivity. }
  rewrite E8'. clear E8'.
  destruct (Ascii.eqb d "0" && ((hd_is "x" s || hd_is "X" s) && hd_sat is_hex_digit (str_tl s)))%bool eqn:E8.
  { rewrite str_tl_app.
    - apply take_lit_app. exact S1.
    - intros ->. rewrite andb_false_r in E8. discriminate E8. }
  destruct (Ascii.eqb d "%" && hd_sat is_binary_digit s)%bool eqn:E9.
  { apply take_lit_app. exact S2. }
  destruct (is_decimal_digit d) eqn:E10.
  { change (String d (s ++ q)) with (String d s ++ q). apply take_lit_app. exact S3. }
  destruct (Ascii.eqb d ".") eqn:E11.
  { rewrite span_app by exact S4. destruct (span is_ident_char s) as [w rest].
    destruct (dotted_token (String "." w)); reflexivity. }
  destruct (is_ident_first d) eqn:E12; [|reflexivity].
  rewrite span_app by exact S4. destruct (span is_ident_char s) as [w rest]. reflexivity.
Qed.

Lemma word_token_not_eol : forall w, word_token w <> TEol.
Proof.
  Local Transparent word_token. intros w. unfold word_token.
  destruct (to_mnemonic w); [discriminate|].
  set (reg := match w with String c EmptyString => _ | _ => None end).
  destruct reg; [discriminate|]. repeat destruct (String.eqb _ _); discriminate.
Qed.
Local Transparent dotted_token.
Lemma dotted_token_cases : forall w,
  (exists t, dotted_token w = Ok t /\ t <> TEol) \/ (exists e, dotted_token w = Err e).
Proof.
  intros w. unfold dotted_token. destruct (to_directive_name w); [left; eexists; split; [reflexivity|discriminate]|].
  destruct (to_suffix w); [left; eexists; split; [reflexivity|discriminate]|right; eauto].
Qed.
Local Opaque word_token dotted_token.

Lemma take_lit_rest : forall base f ty s, hd_sat f s = true ->
  exists v t p rest, take_lit base f ty s = (TLit v t, rest) /\ s = p ++ rest /\ p <> "".
Proof.
  intros base f ty s H. unfold take_lit. destruct (span f s) as [a b] eqn:E.
  apply span_split in E. destruct E as (-> & H1 & H2).
  exists (strtol_int base a), (ty a), a, b. repeat split.
  intros ->. cbn in H. congruence.
Qed.
Lemma next_cases : forall s, s <> "" ->
  (exists t rest p, next_token s = Ok (t, rest) /\ s = p ++ rest /\ p <> "" /\ t <> TEol) \/
  (exists e, next_token s = Err e).
Proof.
  intros s Hs. rewrite next_token_eq. destruct s as [|c r]; [congruence|]. unfold next_alt.
  assert (P : forall t p rest, String c r = p ++ rest -> p <> "" -> t <> TEol ->
    (exists t' rest' p', Ok (t, rest) = Ok (t', rest') /\ String c r = p' ++ rest' /\ p' <> "" /\ t' <> TEol) \/
    (exists e, Ok (t, rest) = Err (A := token * string) e)).
  { intros t p rest H1 H2 H3. left. exists t, rest, p. repeat split; assumption. }
  assert (L : forall base f ty q, hd_sat f q = true -> (exists p, String c r = p ++ q) ->
    (exists t' rest' p', Ok (take_lit base f ty q) = Ok (t', rest') /\ String c r = p' ++ rest' /\ p' <> "" /\ t' <> TEol) \/
    (exists e, Ok (take_lit base f ty q) = Err (A := token * string) e)).
  { intros base f ty q H [p0 H0]. destruct (take_lit_rest base f ty q H) as (v & t & p & rest & E1 & E2 & E3).
    left. exists (TLit v t), rest, (p0 ++ p). rewrite E1. split; [reflexivity|].
    split; [rewrite sapp_assoc, <- E2; exact H0|]. split; [|discriminate].
    intros E. destruct p0; [apply E3; exact E|discriminate E]. }
  assert (T1 : forall a, hd_is a r = true -> String c r = String c (String a "") ++ str_tl r).
  { intros a Ha. destruct r as [|d r]; [discriminate Ha|]. cbn in Ha.
    apply Ascii.eqb_eq in Ha. subst. reflexivity. }
  destruct (Ascii.eqb c "+" && hd_is "+" r && hd_is "+" (str_tl r))%bool eqn:E1.
  { apply (P _ (String c "++")); [|discriminate|discriminate].
    destruct r as [|d [|e r]]; try (rewrite ?andb_false_r in E1; discriminate E1).
    rewrite !andb_true_iff in E1. cbn in E1. destruct E1 as [[_ A] B].
    apply Ascii.eqb_eq in A, B. subst. reflexivity. }
  destruct (Ascii.eqb c "-" && hd_is "-" r && hd_is "-" (str_tl r))%bool eqn:E2.
  { apply (P _ (String c "--")); [|discriminate|discriminate].
    destruct r as [|d [|e r]]; try (rewrite ?andb_false_r in E2; discriminate E2).
    rewrite !andb_true_iff in E2. cbn in E2. destruct E2 as [[_ A] B].
    apply Ascii.eqb_eq in A, B. subst. reflexivity. }
  destruct (Ascii.eqb c ":" && hd_is ":" r)%bool eqn:E3.
  { apply andb_true_iff in E3. eapply P; [apply T1; apply E3|discriminate|discriminate]. }
  destruct (Ascii.eqb c "+" && hd_is "+" r)%bool eqn:E4.
  { apply andb_true_iff in E4. eapply P; [apply T1; apply E4|discriminate|discriminate]. }
  destruct (Ascii.eqb c "-" && hd_is "-" r)%bool eqn:E5.
  { apply andb_true_iff in E5. eapply P; [apply T1; apply E5|discriminate|discriminate]. }
  destruct (is_single_punct c).
  { apply (P _ (String c "")); [reflexivity|discriminate|discriminate]. }
  destruct (Ascii.eqb c "$" && hd_sat is_hex_digit r)%bool eqn:E7.
  { apply andb_true_iff in E7. apply L; [apply E7|]. exists (String c ""). reflexivity. }
  destruct (Ascii.eqb c "0" && (hd_is "x" r || hd_is "X" r) && hd_sat is_hex_digit (str_tl r))%bool eqn:E8.
  { apply andb_true_iff in E8. destruct E8 as [E8 E8']. apply L; [exact E8'|].
    destruct r as [|d r]; [discriminate E8'|]. exists (String c (String d "")). reflexivity. }
  destruct (Ascii.eqb c "%" && hd_sat is_binary_digit r)%bool eqn:E9.
  { apply andb_true_iff in E9. apply L; [apply E9|]. exists (String c ""). reflexivity. }
  destruct (is_decimal_digit c) eqn:E10.
  { apply L; [exact E10|]. exists "". reflexivity. }
  destruct (Ascii.eqb c ".") eqn:E11.
  { destruct (span is_ident_char r) as [w rest] eqn:Es. apply span_split in Es. destruct Es as (Es & _ & _).
    destruct (dotted_token_cases (String "." w)) as [(t & -> & Ht)|(e & ->)]; [|right; cbn; eauto].
    apply (P _ (String c w)); [cbn; rewrite <- Es; reflexivity|discriminate|exact Ht]. }
  destruct (is_ident_first c) eqn:E12; [|right; eauto].
  destruct (span is_ident_char r) as [w rest] eqn:Es. apply span_split in Es. destruct Es as (Es & _ & _).
  apply (P _ (String c w)); [cbn; rewrite <- Es; reflexivity|discriminate|apply word_token_not_eol].
Qed.

(** ** Whole lines. *)
Local Opaque next_token.
Lemma strip_len : forall s, (String.length (strip_leading s) <= String.length s)%nat.
Proof. intros s. induction s as [|c s IH]; cbn; [lia|]. destruct (is_space c); cbn; lia. Qed.

Lemma fuel_enough : forall f g s, (String.length s < f)%nat -> (String.length s < g)%nat ->
  tokenize_fuel f s = tokenize_fuel g s.
Proof.
  intros f. induction f as [|f IH]; intros g s Hf Hg; [lia|]. destruct g as [|g]; [lia|]. cbn.
  pose proof (strip_len s) as Hl. destruct (strip_leading s) as [|c r] eqn:Es; [reflexivity|].
  destruct (Ascii.eqb c ";"); [reflexivity|].
  destruct (next_cases (String c r)) as [(t & rest & p & -> & E2 & E3 & _)|(e & ->)];
    [discriminate| |reflexivity].
  cbn [bind]. rewrite (IH g rest); [reflexivity| |].
  - rewrite E2, slen_app in Hl. destruct p; [congruence|]. cbn in Hl. lia.
  - rewrite E2, slen_app in Hl. destruct p; [congruence|]. cbn in Hl. lia.
Qed.

Definition tok_cons (t : token) (r : res (list token)) : res (list token) :=
  match r with Ok l => Ok (t :: l) | y => y end.

Lemma tokenize_eq : forall s, tokenize s =
  match strip_leading s with
  | EmptyString => Ok [TEol]
  | String c r =>
      if Ascii.eqb c ";" then Ok [TEol]
      else match next_token (String c r) with
           | Ok (t, rest) => tok_cons t (tokenize rest)
           | Err e => Err e | UB u => UB u | OutOfFuel => OutOfFuel
           end
  end.
Proof.
  intros s. unfold tokenize at 1. cbn [tokenize_fuel].
  pose proof (strip_len s) as Hl. destruct (strip_leading s) as [|c r] eqn:Es; [reflexivity|].
  destruct (Ascii.eqb c ";"); [reflexivity|].
  destruct (next_cases (String c r)) as [(t & rest & p & -> & E2 & E3 & _)|(e & ->)];
    [discriminate| |reflexivity].
  cbn [bind]. rewrite (fuel_enough _ (S (String.length rest)) rest).
  - fold (tokenize rest). destruct (tokenize rest); reflexivity.
  - rewrite E2, slen_app in Hl. destruct p; [congruence|]. cbn in Hl. lia.
  - lia.
Qed.

(** Induction along the tokens of a line. *)
Lemma tokenize_ind : forall P : string -> Prop,
  (forall s, strip_leading s = "" -> P s) ->
  (forall s r, strip_leading s = String ";" r -> P s) ->
  (forall s c r e, strip_leading s = String c r -> c <> ";"%char -> next_token (String c r) = Err e -> P s) ->
  (forall s c r t rest, strip_leading s = String c r -> c <> ";"%char ->
     next_token (String c r) = Ok (t, rest) -> t <> TEol -> P rest -> P s) ->
  forall s, P s.
Proof.
  intros P H1 H2 H3 H4 s.
  remember (String.length s) as n eqn:En.
  revert s En. induction n as [n IH] using lt_wf_ind. intros s ->.
  pose proof (strip_len s) as Hl. destruct (strip_leading s) as [|c r] eqn:Es; [apply H1; exact Es|].
  destruct (Ascii.eqb_spec c ";") as [->|Hc]; [eapply H2; exact Es|].
  destruct (next_cases (String c r)) as [(t & rest & p & E1 & E2 & E3 & Ht)|(e & E1)]; [discriminate| |].
  - eapply H4; [exact Es|exact Hc|exact E1|exact Ht|].
    eapply IH; [|reflexivity]. rewrite E2, slen_app in Hl. destruct p; [congruence|]. cbn in Hl. lia.
  - eapply H3; eassumption.
Qed.

Lemma tokenize_shape : forall s,
  (exists body, tokenize s = Ok (body ++ [TEol])%list /\ ~ In TEol body) \/
  (exists e, tokenize s = Err e).
Proof.
  intros s. induction s as [s E|s r E|s c r e E Hc En|s c r t rest E Hc En Ht IH] using tokenize_ind;
    rewrite tokenize_eq, E.
  - left. exists []. split; [reflexivity|intros []].
  - left. exists []. split; [reflexivity|intros []].
  - right. destruct (Ascii.eqb_spec c ";"); [congruence|]. rewrite En. eauto.
  - destruct (Ascii.eqb_spec c ";"); [congruence|]. rewrite En.
    destruct IH as [(body & -> & Hb)|(e & ->)]; [|right; cbn; eauto].
    left. exists (t :: body). split; [reflexivity|]. intros [H|H]; [congruence|tauto].
Qed.

(** ** Separators. *)
(** The tokens of [a] up to its end of line, followed by those of the rest. *)
Definition then_tokens (a b : res (list token)) : res (list token) :=
  match a with
  | Ok l => match b with Ok k => Ok (removelast l ++ k)%list | y => y end
  | y => y
  end.

Lemma strip_leading_shape : forall s, exists w, s = w ++ strip_leading s /\ str_all is_space w = true /\
  hd_sat is_space (strip_leading s) = false.
Proof.
  intros s. induction s as [|c s (w & E1 & E2 & E3)].
  - exists "". repeat split.
  - cbn. destruct (is_space c) eqn:Ec.
    + exists (String c w). cbn. rewrite Ec, <- E1. repeat split; assumption.
    + exists "". cbn. repeat split; assumption.
Qed.
Lemma strip_spaces : forall w s, str_all is_space w = true -> strip_leading (w ++ s) = strip_leading s.
Proof.
  intros w s. induction w as [|c w IH]; [reflexivity|]. cbn. intros H.
  apply andb_true_iff in H. destruct H as [-> H]. apply IH. exact H.
Qed.
Lemma leading_space : forall w s, str_all is_space w = true -> tokenize (w ++ s) = tokenize s.
Proof. intros w s H. rewrite (tokenize_eq (w ++ s)), (tokenize_eq s), strip_spaces by exact H. reflexivity. Qed.

Lemma strip_app : forall s r, hd_sat is_space (strip_leading s) = false -> strip_leading s <> "" ->
  strip_leading (s ++ r) = strip_leading s ++ r.
Proof.
  intros s r. induction s as [|c s IH]; cbn; [congruence|].
  destruct (is_space c) eqn:E; [exact IH|reflexivity].
Qed.

Lemma tokenize_sep : forall s c r, separator c = true -> str_all (fun d => negb (Ascii.eqb d ";")) s = true ->
  tokenize (s ++ String c r) = then_tokens (tokenize s) (tokenize (String c r)).
Proof.
  intros s c r Hc.
  induction s as [s E|s q E|s d q e E Hd En|s d q t rest E Hd En Ht IH] using tokenize_ind; intros Hs.
  - destruct (strip_leading_shape s) as (w & E1 & E2 & _). rewrite E, sapp_nil_r in E1. subst w.
    rewrite (leading_space s (String c r)) by exact E2.
    rewrite (tokenize_eq s), E. cbn [then_tokens removelast app].
    destruct (tokenize (String c r)); reflexivity.
  - exfalso. destruct (strip_leading_shape s) as (w & E1 & E2 & _). rewrite E in E1.
    rewrite E1 in Hs. clear -Hs. induction w as [|a w IH]; cbn in *; [discriminate Hs|].
    apply andb_true_iff in Hs. tauto.
  - assert (hd_sat is_space (strip_leading s) = false) by
      (destruct (strip_leading_shape s) as (w & _ & _ & E3); exact E3).
    rewrite (tokenize_eq (s ++ _)), strip_app by (try assumption; rewrite E; discriminate).
    rewrite (tokenize_eq s), E. cbn [append]. destruct (Ascii.eqb_spec d ";"); [congruence|].
    change (String d (q ++ String c r)) with (String d q ++ String c r).
    rewrite next_sep by (try assumption; discriminate). rewrite En. reflexivity.
  - assert (hd_sat is_space (strip_leading s) = false) by
      (destruct (strip_leading_shape s) as (w & _ & _ & E3); exact E3).
    rewrite (tokenize_eq (s ++ _)), strip_app by (try assumption; rewrite E; discriminate).
    rewrite (tokenize_eq s), E. cbn [append]. destruct (Ascii.eqb_spec d ";"); [congruence|].
    change (String d (q ++ String c r)) with (String d q ++ String c r).
    rewrite next_sep by (try assumption; discriminate). rewrite En. cbn [add_rest].
    rewrite IH.
    + destruct (tokenize_shape rest) as [(body & -> & _)|(e & ->)]; [|reflexivity]. cbn [then_tokens tok_cons].
      destruct (tokenize (String c r)) as [k| | |]; try reflexivity. cbn [tok_cons].
      rewrite removelast_app by discriminate.
      change (t :: body ++ [TEol])%list with ((t :: body) ++ [TEol])%list.
      rewrite removelast_app by discriminate. cbn. rewrite !app_nil_r. reflexivity.
    + destruct (next_cases (String d q)) as [(t' & rest' & p & E1 & E2 & _)|(e & E1)]; [discriminate| |congruence].
      rewrite En in E1. injection E1 as <- <-.
      destruct (strip_leading_shape s) as (w & E3 & _). rewrite E, E2, <- sapp_assoc in E3.
      rewrite E3 in Hs. clear -Hs. induction (w ++ p) as [|a l IH]; cbn in *; [exact Hs|].
      apply andb_true_iff in Hs. tauto.
Qed.

(** ** Comments. *)
Lemma then_eol : forall s, then_tokens (tokenize s) (Ok [TEol]) = tokenize s.
Proof.
  intros s. destruct (tokenize_shape s) as [(b & -> & _)|(e & ->)]; [|reflexivity]. cbn [then_tokens].
  rewrite removelast_app by discriminate. cbn. rewrite app_nil_r. reflexivity.
Qed.
Lemma split_semicolon : forall s, str_all (fun d => negb (Ascii.eqb d ";")) s = true \/
  exists a b, s = a ++ String ";" b /\ str_all (fun d => negb (Ascii.eqb d ";")) a = true.
Proof.
  intros s. induction s as [|c s IH]; [left; reflexivity|]. cbn.
  destruct (Ascii.eqb_spec c ";") as [->|Hc].
  - right. exists "", s. split; reflexivity.
  - destruct IH as [IH|(a & b & -> & Ha)]; [left; exact IH|].
    right. exists (String c a), b. cbn. destruct (Ascii.eqb_spec c ";"); [congruence|]. split; [reflexivity|exact Ha].
Qed.
Lemma tokenize_comment0 : forall t, tokenize (String ";" t) = Ok [TEol].
Proof. intros t. rewrite tokenize_eq. reflexivity. Qed.
Lemma tokenize_comment : forall s t, tokenize (s ++ String ";" t) = tokenize s.
Proof.
  intros s t. destruct (split_semicolon s) as [H|(a & b & -> & H)].
  - rewrite tokenize_sep by (exact H || reflexivity). rewrite tokenize_comment0. apply then_eol.
  - rewrite sapp_assoc. cbn [append].
    rewrite !tokenize_sep by (exact H || reflexivity). rewrite !tokenize_comment0. reflexivity.
Qed.

(** ** Whitespace. *)
Lemma then_assoc : forall a b c, then_tokens (tokenize a) (then_tokens (tokenize b) c) =
  then_tokens (then_tokens (tokenize a) (tokenize b)) c.
Proof.
  intros a b c. destruct (tokenize_shape a) as [(x & -> & _)|(e & ->)]; [|reflexivity].
  destruct (tokenize_shape b) as [(y & -> & _)|(e & ->)]; [|reflexivity].
  destruct c as [c| | |]; cbn [then_tokens]; try reflexivity.
  rewrite !app_assoc, !removelast_app by discriminate. cbn. rewrite !app_nil_r. reflexivity.
Qed.
Lemma space_separator : forall c, is_space c = true -> separator c = true.
Proof. intros c H. unfold separator. rewrite H. reflexivity. Qed.

Lemma tokenize_space : forall a w b, str_all is_space w = true -> w <> "" ->
  str_all (fun d => negb (Ascii.eqb d ";")) a = true ->
  tokenize (a ++ w ++ b) = then_tokens (tokenize a) (tokenize b).
Proof.
  intros a w b Hw Hn Ha. destruct w as [|c w]; [congruence|]. pose proof Hw as Hw'. cbn in Hw.
  apply andb_true_iff in Hw. destruct Hw as [Hc Hw]. cbn [append].
  rewrite tokenize_sep by (exact Ha || (apply space_separator; exact Hc)).
  change (String c (w ++ b)) with (String c w ++ b). rewrite leading_space by exact Hw'. reflexivity.
Qed.
Lemma tokenize_any_space : forall a w1 w2 b, str_all is_space w1 = true -> str_all is_space w2 = true ->
  w1 <> "" -> w2 <> "" -> tokenize (a ++ w1 ++ b) = tokenize (a ++ w2 ++ b).
Proof.
  intros a w1 w2 b H1 H2 N1 N2. destruct (split_semicolon a) as [H|(x & y & -> & H)].
  - rewrite !tokenize_space by assumption. reflexivity.
  - rewrite !sapp_assoc. cbn [append]. rewrite !tokenize_comment. reflexivity.
Qed.

(** ** Letter case. *)
Lemma upper_tests : forall c,
  is_space (ascii_upper c) = is_space c /\ is_hex_digit (ascii_upper c) = is_hex_digit c /\
  is_binary_digit (ascii_upper c) = is_binary_digit c /\
  is_decimal_digit (ascii_upper c) = is_decimal_digit c /\
  is_ident_first (ascii_upper c) = is_ident_first c /\
  is_ident_char (ascii_upper c) = is_ident_char c /\
  is_single_punct (ascii_upper c) = is_single_punct c /\
  ascii_upper (ascii_upper c) = ascii_upper c /\
  ascii_lower (ascii_upper c) = ascii_lower c /\
  (is_hex_digit c = true -> digit_value (ascii_upper c) = digit_value c) /\
  (is_single_punct c = true -> ascii_upper c = c) /\
  (is_decimal_digit c = true -> ascii_upper c = c).
Proof.
  intros c. destruct c as [[] [] [] [] [] [] [] []]; repeat split; intros H; discriminate H.
Qed.
Lemma upper_eqb : forall c k, In k ["+"; "-"; ":"; "$"; "%"; "0"; "."; ";"]%char ->
  Ascii.eqb (ascii_upper c) k = Ascii.eqb c k.
Proof.
  intros c k H.
  assert (forallb (fun k => Bool.eqb (Ascii.eqb (ascii_upper c) k) (Ascii.eqb c k))
            ["+"; "-"; ":"; "$"; "%"; "0"; "."; ";"]%char = true) as F.
  { destruct c as [[] [] [] [] [] [] [] []]; reflexivity. }
  rewrite forallb_forall in F. apply eqb_prop. apply F. exact H.
Qed.
Lemma upper_app : forall a b, str_upper (a ++ b) = str_upper a ++ str_upper b.
Proof. intros a b. induction a as [|c a IH]; cbn; [|rewrite IH]; reflexivity. Qed.
Lemma upper_len : forall s, String.length (str_upper s) = String.length s.
Proof. intros s. induction s as [|c s IH]; cbn; [|rewrite IH]; reflexivity. Qed.
Lemma lower_upper : forall s, str_lower (str_upper s) = str_lower s.
Proof.
  intros s. induction s as [|c s IH]; cbn; [reflexivity|]. rewrite IH. f_equal. apply upper_tests.
Qed.
Lemma upper_idem : forall c, ascii_upper (ascii_upper c) = ascii_upper c.
Proof. intros c. exact (proj1 (proj2 (proj2 (proj2 (proj2 (proj2 (proj2 (proj2 (upper_tests c))))))))). Qed.
Lemma upper_upper : forall s, str_upper (str_upper s) = str_upper s.
Proof.
  intros s. induction s as [|c s IH]; cbn; [reflexivity|].
  rewrite IH, upper_idem. reflexivity.
Qed.
Lemma span_upper : forall f s, (forall c, f (ascii_upper c) = f c) ->
  span f (str_upper s) = (let (a, b) := span f s in (str_upper a, str_upper b)).
Proof.
  intros f s H. induction s as [|c s IH]; [reflexivity|]. cbn. rewrite H, IH.
  destruct (f c); [destruct (span f s); reflexivity|reflexivity].
Qed.
Lemma digits_upper : forall base s acc, str_all is_hex_digit s = true ->
  digits_value base acc (str_upper s) = digits_value base acc s.
Proof.
  intros base s. induction s as [|c s IH]; intros acc H; [reflexivity|]. cbn in *.
  apply andb_true_iff in H. destruct H as [Hc H]. rewrite IH by exact H. f_equal. f_equal.
  apply upper_tests. exact Hc.
Qed.
Lemma hd_is_upper : forall k s, In k ["+"; "-"; ":"; "$"; "%"; "0"; "."; ";"]%char ->
  hd_is k (str_upper s) = hd_is k s.
Proof. intros k [|c s] H; [reflexivity|]. apply upper_eqb. exact H. Qed.
Lemma hd_sat_upper : forall f s, (forall c, f (ascii_upper c) = f c) -> hd_sat f (str_upper s) = hd_sat f s.
Proof. intros f [|c s] H; [reflexivity|]. apply H. Qed.
Lemma str_tl_upper : forall s, str_tl (str_upper s) = str_upper (str_tl s).
Proof. intros [|c s]; reflexivity. Qed.
Lemma hd_x_upper : forall s, (hd_is "x" (str_upper s) || hd_is "X" (str_upper s))%bool =
  (hd_is "x" s || hd_is "X" s)%bool.
Proof. intros [|c s]; [reflexivity|]. cbn. destruct c as [[] [] [] [] [] [] [] []]; reflexivity. Qed.
Lemma str_all_imp : forall (f g : ascii -> bool) s, (forall c, f c = true -> g c = true) ->
  str_all f s = true -> str_all g s = true.
Proof.
  intros f g s H. induction s as [|c s IH]; [reflexivity|]. cbn. intros E.
  apply andb_true_iff in E. rewrite (H c), IH; tauto.
Qed.

Definition upper_token (t : token) : token :=
  match t with TIdent w => TIdent (str_upper w) | t => t end.
Local Transparent word_token dotted_token strtol_int.
Lemma word_upper : forall w, word_token (str_upper w) = upper_token (word_token w).
Proof.
  intros w. unfold word_token. unfold to_mnemonic. rewrite lower_upper.
  destruct (assoc_string (str_lower w) mnemonic_table); [reflexivity|].
  assert (R : match str_upper w with
              | String c EmptyString => match ascii_upper c with
                                        | ("A" | "S" | "X" | "Y")%char => Some (ascii_upper c)
                                        | _ => None end
              | _ => None end =
              match w with
              | String c EmptyString => match ascii_upper c with
                                        | ("A" | "S" | "X" | "Y")%char => Some (ascii_upper c)
                                        | _ => None end
              | _ => None end).
  { destruct w as [|c [|d w]]; try reflexivity. cbn [str_upper].
    rewrite upper_idem. reflexivity. }
  rewrite R. clear R.
  set (reg := match w with String c EmptyString => _ | _ => None end).
  destruct reg; [reflexivity|]. repeat destruct (String.eqb _ _); reflexivity.
Qed.
Lemma dotted_upper : forall w, dotted_token (str_upper w) = dotted_token w.
Proof.
  intros w. unfold dotted_token, to_directive_name, to_suffix. rewrite lower_upper, upper_upper. reflexivity.
Qed.
Local Opaque word_token dotted_token.

Definition upper_next (x : res (token * string)) : res (token * string) :=
  match x with Ok (t, rest) => Ok (upper_token t, str_upper rest) | y => y end.
Lemma take_lit_upper : forall base f ty s, (forall c, f (ascii_upper c) = f c) ->
  (forall c, f c = true -> is_hex_digit c = true) ->
  (forall d, ty (str_upper d) = ty d) ->
  Ok (take_lit base f ty (str_upper s)) = upper_next (Ok (take_lit base f ty s)).
Proof.
  intros base f ty s H Hx Ht. unfold take_lit. rewrite span_upper by exact H.
  destruct (span f s) as [a b] eqn:E. apply span_split in E. destruct E as (_ & E & _). cbn.
  rewrite Ht. unfold strtol_int. rewrite digits_upper by (eapply str_all_imp; eassumption). reflexivity.
Qed.
Local Transparent next_token.
Lemma next_upper : forall s, next_token (str_upper s) = upper_next (next_token s).
Proof.
  intros s. rewrite !next_token_eq. destruct s as [|c s]; [reflexivity|].
  cbn [str_upper]. unfold next_alt.
  destruct (upper_tests c) as (U1 & U2 & U3 & U4 & U5 & U6 & U7 & U8 & U9 & U10 & U11 & U12).
  assert (X1 : forall c, is_hex_digit (ascii_upper c) = is_hex_digit c) by (intros; apply upper_tests).
  assert (X2 : forall c, is_binary_digit (ascii_upper c) = is_binary_digit c) by (intros; apply upper_tests).
  assert (X3 : forall c, is_decimal_digit (ascii_upper c) = is_decimal_digit c) by (intros; apply upper_tests).
  assert (X4 : forall c, is_ident_char (ascii_upper c) = is_ident_char c) by (intros; apply upper_tests).
  rewrite !upper_eqb by (cbn; tauto). rewrite U4, U5, U7, !str_tl_upper.
  rewrite !hd_is_upper by (cbn; tauto). rewrite hd_x_upper.
  rewrite !hd_sat_upper by assumption.
  repeat match goal with
  | |- (if ?b then _ else _) = _ => destruct b eqn:?; try reflexivity
  end.
  - cbn. rewrite U11 by reflexivity. reflexivity.
  - apply take_lit_upper; [exact X1|auto|]. intros d. unfold hex_type. rewrite upper_len. reflexivity.
  - apply take_lit_upper; [exact X1|auto|]. intros d. unfold hex_type. rewrite upper_len. reflexivity.
  - apply take_lit_upper; [exact X2| |].
    + intros d. destruct d as [[] [] [] [] [] [] [] []]; intros H; discriminate H || reflexivity.
    + intros d. unfold bin_type. rewrite upper_len. reflexivity.
  - change (String (ascii_upper c) (str_upper s)) with (str_upper (String c s)).
    apply take_lit_upper; [exact X3| |reflexivity].
    intros d. unfold is_hex_digit, is_decimal_digit. intros ->. reflexivity.
  - rewrite span_upper by exact X4. destruct (span is_ident_char s) as [w rest].
    change (String "." (str_upper w)) with (str_upper (String "." w)). rewrite dotted_upper.
    destruct (dotted_token_cases (String "." w)) as [(t & Et & _)|(e & ->)]; [|reflexivity].
    rewrite Et. cbn. Local Transparent dotted_token. unfold dotted_token in Et.
    destruct (to_directive_name _); [injection Et as <-; reflexivity|].
    destruct (to_suffix _); [injection Et as <-; reflexivity|discriminate Et].
  - rewrite span_upper by exact X4. destruct (span is_ident_char s) as [w rest].
    change (String (ascii_upper c) (str_upper w)) with (str_upper (String c w)). rewrite word_upper. reflexivity.
Qed.
Local Opaque next_token dotted_token.

Lemma strip_upper : forall s, strip_leading (str_upper s) = str_upper (strip_leading s).
Proof.
  intros s. induction s as [|c s IH]; [reflexivity|]. cbn.
  rewrite (proj1 (upper_tests c)).
  destruct (is_space c); [exact IH|reflexivity].
Qed.
Definition upper_tokens (x : res (list token)) : res (list token) :=
  match x with Ok l => Ok (map upper_token l) | y => y end.
Lemma tokenize_upper : forall s, tokenize (str_upper s) = upper_tokens (tokenize s).
Proof.
  intros s. induction s as [s E|s r E|s c r e E Hc En|s c r t rest E Hc En Ht IH] using tokenize_ind;
    rewrite (tokenize_eq (str_upper s)), (tokenize_eq s), strip_upper, E; try reflexivity;
    cbn [str_upper]; rewrite upper_eqb by (cbn; tauto).
  - destruct (Ascii.eqb_spec c ";"); [congruence|].
    change (String (ascii_upper c) (str_upper r)) with (str_upper (String c r)).
    rewrite next_upper, En. reflexivity.
  - destruct (Ascii.eqb_spec c ";"); [congruence|].
    change (String (ascii_upper c) (str_upper r)) with (str_upper (String c r)).
    rewrite next_upper, En. cbn [upper_next]. rewrite IH. destruct (tokenize rest); reflexivity.
Qed.
