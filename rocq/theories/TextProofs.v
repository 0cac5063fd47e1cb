(** Tokenizer properties in terms of the specification. *)
From Verif Require Import Base ModelNumeric ModelMnemonic ModelExpr ModelToken ModelParse.
From Verif Require Import BaseProofs SpecNames SpecText NameProofs TokenProofs.
Local Open Scope string_scope.
Local Open Scope Z_scope.

(** ** Numerals. *)
Definition digit_test (base : Z) : ascii -> bool :=
  if base =? 16 then is_hex_digit else if base =? 10 then is_decimal_digit else is_binary_digit.
Definition known_base (base : Z) : Prop := base = 2 \/ base = 10 \/ base = 16.

Lemma index_lower : forall c, index_of c "0123456789abcdef" 0 =
  if in_range "0" "9" c || in_range "a" "f" c then Some (digit_value c) else None.
Proof. intros c. destruct c as [[] [] [] [] [] [] [] []]; reflexivity. Qed.
Lemma index_upper : forall c, index_of c "0123456789ABCDEF" 0 =
  if in_range "0" "9" c || in_range "A" "F" c then Some (digit_value c) else None.
Proof. intros c. destruct c as [[] [] [] [] [] [] [] []]; reflexivity. Qed.
Lemma digit_tests : forall c,
  is_decimal_digit c = (is_hex_digit c && (digit_value c <? 10))%bool /\
  is_binary_digit c = (is_hex_digit c && (digit_value c <? 2))%bool /\
  is_hex_digit c = (is_hex_digit c && (digit_value c <? 16))%bool.
Proof. intros c. destruct c as [[] [] [] [] [] [] [] []]; repeat split. Qed.

Lemma digit_test_eq : forall base c, known_base base ->
  digit_test base c = (is_hex_digit c && (digit_value c <? base))%bool.
Proof. intros base c [->|[->| ->]]; apply digit_tests. Qed.

Lemma digit_iff : forall base c d, known_base base ->
  (digit base c d <-> digit_test base c = true /\ digit_value c = d).
Proof.
  intros base c d Hb. rewrite digit_test_eq by exact Hb. unfold digit.
  rewrite index_lower, index_upper, andb_true_iff, Z.ltb_lt. unfold is_hex_digit.
  destruct (in_range "0" "9" c), (in_range "a" "f" c), (in_range "A" "F" c); cbn; split;
    try (intros [H1 [H2|H2]]; first [discriminate H2|injection H2 as <-]; auto; fail);
    try (intros [[H1 H2] <-]; first [discriminate H1|auto]; fail).
Qed.

Lemma numeral_facts : forall base s n v, known_base base -> numeral base s n v ->
  str_all (digit_test base) s = true /\ n = Z.of_nat (String.length s) /\ 0 <= v /\
  forall acc, digits_value base acc s = acc * base ^ n + v.
Proof.
  intros base s n v Hb H. induction H as [|c d s n v Hd H (I1 & I2 & I4 & I3)].
  - repeat split; try lia. intros acc. cbn. lia.
  - pose proof Hd as Hd0. apply digit_iff in Hd; [|exact Hb]. destruct Hd as [D1 D2]. cbn. rewrite D1, I1.
    assert (Hd1 : 0 <= d).
    { destruct Hd0 as [_ [E|E]]; revert E; clear; destruct c as [[] [] [] [] [] [] [] []]; cbn;
        intros E; first [discriminate E|injection E as <-; lia]. }
    assert (0 < base) by (destruct Hb as [->|[->| ->]]; lia).
    assert (0 <= base ^ n) by (apply Z.pow_nonneg; lia).
    split; [reflexivity|]. split; [lia|]. split; [nia|].
    intros acc. rewrite I3, D2, Z.pow_add_r by lia. rewrite Z.pow_1_r. ring.
Qed.

Lemma ends_numeral_sat : forall base s, known_base base -> ends_numeral base s ->
  hd_sat (digit_test base) s = false.
Proof.
  intros base [|c r] Hb H; [reflexivity|]. cbn. destruct (digit_test base c) eqn:E; [|reflexivity].
  exfalso. apply (H c r (digit_value c) eq_refl). apply digit_iff; auto.
Qed.

Lemma read_small : forall v, 0 <= v -> v <= int_max -> wraps_to v v.
Proof. unfold wraps_to, int_max. intros v H0 H. split; [lia|]. split; [reflexivity|lia]. Qed.
Lemma strtol_exact : forall base s n v w, known_base base -> numeral base s n v -> wraps_to v w ->
  strtol_int base s = w.
Proof.
  intros base s n v w Hb H (R & L & G). destruct (numeral_facts base s n v Hb H) as (_ & _ & H0 & H1).
  assert (E : digits_value base 0 s = v) by (rewrite H1, Z.mul_0_l; reflexivity). clear H1 H.
  unfold strtol_int. rewrite E. clear E.
  destruct (Z.lt_ge_cases v (2 ^ 63)) as [K|K].
  - rewrite Z.min_l by lia. specialize (L K). transitivity (to_int32 w); [|apply to_int32_small; lia].
    change (2 ^ 32) with 4294967296 in L. unfold to_int32 in *. rewrite L. reflexivity.
  - rewrite Z.min_r by lia. rewrite (G K). reflexivity.
Qed.

Lemma hex_type_sized : forall s n v, numeral 16 s n v -> sized_type 2 n (hex_type s).
Proof.
  intros s n v H. destruct (numeral_facts 16 s n v) as (_ & -> & _); [right; right; reflexivity|exact H|].
  unfold sized_type, hex_type. destruct (Nat.leb_spec (String.length s) 2); [left; split; [lia|reflexivity]|].
  destruct (Nat.leb_spec (String.length s) 4); [right; left|right; right]; split; (lia || reflexivity).
Qed.
Lemma bin_type_sized : forall s n v, numeral 2 s n v -> sized_type 8 n (bin_type s).
Proof.
  intros s n v H. destruct (numeral_facts 2 s n v) as (_ & -> & _); [left; reflexivity|exact H|].
  unfold sized_type, bin_type. destruct (Nat.leb_spec (String.length s) 8); [left; split; [lia|reflexivity]|].
  destruct (Nat.leb_spec (String.length s) 16); [right; left|right; right]; split; (lia || reflexivity).
Qed.

Lemma take_lit_numeral : forall base ty ds n v w rest, known_base base -> numeral base ds n v ->
  wraps_to v w -> ends_numeral base rest ->
  take_lit base (digit_test base) ty (ds ++ rest) = (TLit w (ty ds), rest).
Proof.
  intros base ty ds n v w rest Hb H Hv He. unfold take_lit.
  destruct (numeral_facts base ds n v Hb H) as (H1 & _).
  rewrite span_exact by (exact H1 || apply ends_numeral_sat; assumption).
  rewrite (strtol_exact base ds n v w) by assumption. reflexivity.
Qed.

Lemma numeral_head : forall base ds n v rest, known_base base -> numeral base ds n v -> 0 < n ->
  hd_sat (digit_test base) (ds ++ rest) = true.
Proof.
  intros base ds n v rest Hb H Hn. destruct (numeral_facts base ds n v Hb H) as (H1 & H2 & _).
  destruct ds as [|c ds]; [cbn in H2; lia|]. cbn in *. apply andb_true_iff in H1. tauto.
Qed.

Lemma next_dollar : forall ds n v w rest, numeral 16 ds n v -> 0 < n -> wraps_to v w ->
  ends_numeral 16 rest -> next_token (String "$" (ds ++ rest)) = Ok (TLit w (hex_type ds), rest).
Proof.
  intros ds n v w rest H Hn Hv He. assert (Hb : known_base 16) by (right; right; reflexivity).
  rewrite next_token_eq. unfold next_alt.
  assert (hd_sat is_hex_digit (ds ++ rest) = true) as K
    by exact (numeral_head 16 ds n v rest Hb H Hn).
  rewrite K. pose proof (take_lit_numeral 16 hex_type ds n v w rest Hb H Hv He) as E.
  change (digit_test 16) with is_hex_digit in E. rewrite E. reflexivity.
Qed.
Lemma next_0x : forall x ds n v w rest, x = "x"%char \/ x = "X"%char -> numeral 16 ds n v -> 0 < n -> wraps_to v w ->
  ends_numeral 16 rest -> next_token (String "0" (String x (ds ++ rest))) = Ok (TLit w (hex_type ds), rest).
Proof.
  intros x ds n v w rest Hx H Hn Hv He. assert (Hb : known_base 16) by (right; right; reflexivity).
  rewrite next_token_eq. unfold next_alt.
  assert (hd_sat is_hex_digit (ds ++ rest) = true) as K
    by exact (numeral_head 16 ds n v rest Hb H Hn).
  pose proof (take_lit_numeral 16 hex_type ds n v w rest Hb H Hv He) as E.
  change (digit_test 16) with is_hex_digit in E.
  destruct Hx as [->| ->]; cbn [str_tl]; rewrite K; cbn; rewrite E; reflexivity.
Qed.
Lemma next_percent : forall ds n v w rest, numeral 2 ds n v -> 0 < n -> wraps_to v w ->
  ends_numeral 2 rest -> next_token (String "%" (ds ++ rest)) = Ok (TLit w (bin_type ds), rest).
Proof.
  intros ds n v w rest H Hn Hv He. assert (Hb : known_base 2) by (left; reflexivity).
  rewrite next_token_eq. unfold next_alt.
  assert (hd_sat is_binary_digit (ds ++ rest) = true) as K
    by exact (numeral_head 2 ds n v rest Hb H Hn).
  rewrite K. pose proof (take_lit_numeral 2 bin_type ds n v w rest Hb H Hv He) as E.
  change (digit_test 2) with is_binary_digit in E. rewrite E. reflexivity.
Qed.
Lemma next_decimal : forall ds n v w rest, numeral 10 ds n v -> 0 < n -> wraps_to v w ->
  ends_numeral 10 rest ->
  (forall x r, ds = "0" -> rest = String x r -> x <> "x"%char /\ x <> "X"%char) ->
  next_token (ds ++ rest) = Ok (TLit w T_unknown, rest).
Proof.
  intros ds n v w rest H Hn Hv He Hx. assert (Hb : known_base 10) by (right; left; reflexivity).
  rewrite next_token_eq.
  pose proof (numeral_head 10 ds n v rest Hb H Hn) as K.
  pose proof (take_lit_numeral 10 (fun _ => T_unknown) ds n v w rest Hb H Hv He) as E.
  change (digit_test 10) with is_decimal_digit in *.
  destruct (numeral_facts 10 ds n v Hb H) as (A & B & _). change (digit_test 10) with is_decimal_digit in A.
  destruct ds as [|c ds]; [cbn in B; lia|]. cbn [append] in *. cbn [hd_sat] in K.
  unfold next_alt.
  assert (forall k, In k ["+"; "-"; ":"; "$"; "%"]%char -> Ascii.eqb c k = false) as N.
  { intros k Hk. destruct (Ascii.eqb_spec c k) as [->|]; [|reflexivity]. exfalso.
    cbn in Hk. repeat destruct Hk as [<-|Hk]; try discriminate K. destruct Hk. }
  rewrite (N "+"%char), (N "-"%char), (N ":"%char), (N "$"%char), (N "%"%char) by (cbn; tauto). cbn [andb].
  assert (is_single_punct c = false) as ->.
  { destruct c as [[] [] [] [] [] [] [] []]; try discriminate K; reflexivity. }
  rewrite K, E.
  destruct (Ascii.eqb c "0" && (hd_is "x" (ds ++ rest) || hd_is "X" (ds ++ rest))
            && hd_sat is_hex_digit (str_tl (ds ++ rest)))%bool eqn:F; [|reflexivity].
  exfalso. rewrite !andb_true_iff in F. destruct F as [[F1 F2] _]. apply Ascii.eqb_eq in F1. subst c.
  cbn in A. destruct ds as [|d ds].
  - cbn [append] in F2. destruct rest as [|x r]; [discriminate F2|].
    destruct (Hx x r eq_refl eq_refl) as [X1 X2]. cbn in F2. rewrite orb_true_iff, !Ascii.eqb_eq in F2. tauto.
  - cbn in A, F2. apply andb_true_iff in A. destruct A as [A _].
    rewrite orb_true_iff, !Ascii.eqb_eq in F2. destruct F2 as [-> | ->]; discriminate A.
Qed.

Lemma tokenize_next : forall c s t rest, is_space c = false -> c <> ";"%char ->
  next_token (String c s) = Ok (t, rest) -> tokenize (String c s) = tok_cons t (tokenize rest).
Proof.
  intros c s t rest H1 H2 H. rewrite tokenize_eq. cbn [strip_leading]. rewrite H1.
  destruct (Ascii.eqb_spec c ";"); [congruence|]. rewrite H. reflexivity.
Qed.

Lemma any_literals : forall rest ts, tokenize rest = Ok ts ->
  (forall ds n v w, numeral 16 ds n v -> 0 < n -> wraps_to v w -> ends_numeral 16 rest ->
     exists t, sized_type 2 n t /\
       tokenize ("$" ++ ds ++ rest) = Ok (TLit w t :: ts) /\
       tokenize ("0x" ++ ds ++ rest) = Ok (TLit w t :: ts) /\
       tokenize ("0X" ++ ds ++ rest) = Ok (TLit w t :: ts)) /\
  (forall ds n v w, numeral 2 ds n v -> 0 < n -> wraps_to v w -> ends_numeral 2 rest ->
     exists t, sized_type 8 n t /\ tokenize ("%" ++ ds ++ rest) = Ok (TLit w t :: ts)) /\
  (forall ds n v w, numeral 10 ds n v -> 0 < n -> wraps_to v w -> ends_numeral 10 rest ->
     (forall x r, ds = "0" -> rest = String x r -> x <> "x"%char /\ x <> "X"%char) ->
     tokenize (ds ++ rest) = Ok (TLit w T_unknown :: ts)).
Proof.
  intros rest ts Hr. split; [|split].
  - intros ds n v w H Hn Hv He. exists (hex_type ds). split; [eapply hex_type_sized; exact H|].
    cbn [append]. split; [|split].
    + rewrite (tokenize_next _ _ (TLit w (hex_type ds)) rest); [|reflexivity|discriminate|].
      * rewrite Hr. reflexivity.
      * eapply next_dollar; eassumption.
    + rewrite (tokenize_next _ _ (TLit w (hex_type ds)) rest); [|reflexivity|discriminate|].
      * rewrite Hr. reflexivity.
      * eapply next_0x; try eassumption. left. reflexivity.
    + rewrite (tokenize_next _ _ (TLit w (hex_type ds)) rest); [|reflexivity|discriminate|].
      * rewrite Hr. reflexivity.
      * eapply next_0x; try eassumption. right. reflexivity.
  - intros ds n v w H Hn Hv He. exists (bin_type ds). split; [eapply bin_type_sized; exact H|].
    cbn [append]. rewrite (tokenize_next _ _ (TLit w (bin_type ds)) rest); [|reflexivity|discriminate|].
    + rewrite Hr. reflexivity.
    + eapply next_percent; eassumption.
  - intros ds n v w H Hn Hv He Hx.
    pose proof (next_decimal ds n v w rest H Hn Hv He Hx) as E.
    assert (Hb : known_base 10) by (right; left; reflexivity).
    pose proof (numeral_head 10 ds n v rest Hb H Hn) as K.
    destruct (ds ++ rest) as [|c r] eqn:Es; [discriminate K|]. cbn in K.
    rewrite (tokenize_next _ _ (TLit w T_unknown) rest); [rewrite Hr; reflexivity| | |exact E].
    + destruct c as [[] [] [] [] [] [] [] []]; try discriminate K; reflexivity.
    + intros ->. discriminate K.
Qed.

Lemma literals : forall rest ts, tokenize rest = Ok ts ->
  (forall ds n v, numeral 16 ds n v -> 0 < n -> v <= int_max -> ends_numeral 16 rest ->
     exists t, sized_type 2 n t /\
       tokenize ("$" ++ ds ++ rest) = Ok (TLit v t :: ts) /\
       tokenize ("0x" ++ ds ++ rest) = Ok (TLit v t :: ts) /\
       tokenize ("0X" ++ ds ++ rest) = Ok (TLit v t :: ts)) /\
  (forall ds n v, numeral 2 ds n v -> 0 < n -> v <= int_max -> ends_numeral 2 rest ->
     exists t, sized_type 8 n t /\ tokenize ("%" ++ ds ++ rest) = Ok (TLit v t :: ts)) /\
  (forall ds n v, numeral 10 ds n v -> 0 < n -> v <= int_max -> ends_numeral 10 rest ->
     (forall x r, ds = "0" -> rest = String x r -> x <> "x"%char /\ x <> "X"%char) ->
     tokenize (ds ++ rest) = Ok (TLit v T_unknown :: ts)).
Proof.
  intros rest ts Hr. destruct (any_literals rest ts Hr) as (A & B & C).
  assert (N : forall base ds n v, known_base base -> numeral base ds n v -> 0 <= v) by (intros base ds n v K H; apply (numeral_facts base ds n v K H)).
  split; [|split]; intros ds n v H Hn Hv He.
  - apply (A ds n v v); try assumption. apply read_small; [apply (N 16 ds n v); [right; right; reflexivity|exact H]|exact Hv].
  - apply (B ds n v v); try assumption. apply read_small; [apply (N 2 ds n v); [left; reflexivity|exact H]|exact Hv].
  - apply (C ds n v v); try assumption. apply read_small; [apply (N 10 ds n v); [right; left; reflexivity|exact H]|exact Hv].
Qed.

(** ** Lines. *)
Lemma spaces_all : forall s, spaces s -> str_all is_space s = true.
Proof.
  intros s. induction s as [|c s IH]; intros H; [reflexivity|]. cbn.
  rewrite (H "" c s eq_refl), IH; [reflexivity|].
  intros a d b ->. apply (H (String c a) d b). reflexivity.
Qed.

Lemma same_upper_token : forall a b, upper_token a = upper_token b -> same_token a b.
Proof.
  intros [] [] H; cbn in H; try discriminate H; cbn; try (injection H as ->; reflexivity); try reflexivity;
    try (injection H; intros; subst; reflexivity).
  injection H as H. apply same_name_upper. exact H.
Qed.
Lemma same_upper_tokens : forall l k, map upper_token l = map upper_token k -> Forall2 same_token l k.
Proof.
  intros l. induction l as [|a l IH]; intros [|b k] H; try discriminate H; [constructor|].
  cbn in H. injection H as H1 H2. constructor; [apply same_upper_token; exact H1|apply IH; exact H2].
Qed.
Lemma case_insensitive : forall s t, same_name s t ->
  match tokenize s, tokenize t with
  | Ok l, Ok k => Forall2 same_token l k
  | Err e, Err f => e = f
  | _, _ => False
  end.
Proof.
  intros s t H. apply same_name_upper in H.
  pose proof (tokenize_upper s) as H1. pose proof (tokenize_upper t) as H2. rewrite H, H2 in H1.
  destruct (tokenize_shape s) as [(x & Ex & _)|(e & Ee)]; [rewrite Ex in *|rewrite Ee in *];
    (destruct (tokenize_shape t) as [(y & Ey & _)|(f & Ef)]; [rewrite Ey in *|rewrite Ef in *]);
    cbn [upper_tokens] in H1; try discriminate H1; injection H1 as H1.
  - apply same_upper_tokens. symmetry. exact H1.
  - symmetry. exact H1.
Qed.

Lemma no_char_all : forall c s, no_char c s -> str_all (fun d => negb (Ascii.eqb d c)) s = true.
Proof.
  intros c s. induction s as [|d s IH]; intros H; [reflexivity|]. cbn.
  destruct (Ascii.eqb_spec d c) as [->|].
  - exfalso. apply (H "" s). reflexivity.
  - apply IH. intros a b ->. apply (H (String d a) b). reflexivity.
Qed.

Lemma whitespace : forall a w b, spaces w ->
  tokenize (w ++ b) = tokenize b /\
  (forall w', spaces w' -> w <> "" -> w' <> "" -> tokenize (a ++ w ++ b) = tokenize (a ++ w' ++ b)) /\
  (w <> "" -> no_char ";" a ->
     (forall ta tb, tokenize a = Ok (ta ++ [TEol])%list -> tokenize b = Ok tb ->
        tokenize (a ++ w ++ b) = Ok (ta ++ tb)%list) /\
     (is_ok (tokenize (a ++ w ++ b)) = true ->
        is_ok (tokenize a) = true /\ is_ok (tokenize b) = true)).
Proof.
  intros a w b Hw. apply spaces_all in Hw. split; [apply leading_space; exact Hw|]. split.
  - intros w' Hw' N N'. apply spaces_all in Hw'. apply tokenize_any_space; assumption.
  - intros N Ha. apply no_char_all in Ha. rewrite tokenize_space by assumption. split.
    + intros ta tb -> ->. cbn [then_tokens]. rewrite removelast_app by discriminate.
      cbn. rewrite app_nil_r. reflexivity.
    + generalize (tokenize a), (tokenize b). intros [x|x|x|] [y|y|y|]; cbn; intros H; try discriminate H.
      split; reflexivity.
Qed.
