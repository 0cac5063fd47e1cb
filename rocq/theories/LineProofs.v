(** From text to expressions. *)
From Verif Require Import Base ModelNumeric ModelMnemonic ModelExpr ModelToken ModelParse.
From Verif Require Import BaseProofs SpecNames SpecText NameProofs TokenProofs TextProofs ParseProofs.
Local Open Scope string_scope.
Local Open Scope Z_scope.
Local Opaque next_token.

Lemma spaced_tokens : forall ws line, spaced ws line -> forall ts, Forall2 spells ws ts ->
  tokenize line = Ok (ts ++ [TEol])%list.
Proof.
  induction 1 as [w|w s ws line Hs Hn H IH]; intros ts F; inversion F as [|? t ? ts' [Hw Hc] F']; subst.
  - inversion F'; subst. exact Hw.
  - destruct (whitespace w s line Hs) as (_ & _ & K). destruct (K Hn Hc) as (K1 & _).
    rewrite (K1 [t] (ts' ++ [TEol])%list); [reflexivity|exact Hw|apply IH; exact F'].
Qed.

Lemma parse_expression_tokens : forall s p e, tokenize s = Ok (p ++ [TEol])%list -> grammar 0 p e ->
  parse_expression s = Ok e.
Proof.
  intros s p e H G. unfold parse_expression. rewrite H. cbn [bind].
  rewrite (proj2 (expression_grammar (p ++ [TEol]) e TEol [] ltac:(intros X; cbn in X; intuition discriminate))).
  - reflexivity.
  - exists p. split; [reflexivity|exact G].
Qed.
Lemma parse_expression_only : forall s e, parse_expression s = Ok e ->
  exists ts p t rest, tokenize s = Ok ts /\ ts = (p ++ t :: rest)%list /\ grammar 0 p e /\
    (t = TEol \/ t = punct ":").
Proof.
  intros s e H. unfold parse_expression in H. apply bind_ok in H as (ts & H1 & H).
  apply bind_ok in H as ([e' ts'] & H2 & H). apply bind_ok in H as ([] & H3 & H). injection H as ->.
  destruct (expression_rest _ _ _ H2) as ((p & -> & G) & _). destruct ts' as [|t rest]; [discriminate H3|].
  exists (p ++ t :: rest)%list, p, t, rest. repeat split; try assumption.
  unfold confirm_at_end in H3. cbn in H3. unfold tok_at_end in H3.
  destruct (is_eol t) eqn:E1; [left; destruct t; try discriminate E1; reflexivity|]. right.
  destruct (is_char ":" t) eqn:E2; [|discriminate H3]. destruct t; try discriminate E2. cbn in E2.
  apply Z.eqb_eq in E2. subst. reflexivity.
Qed.
Lemma expression_text : forall e ws line, writable e -> Forall2 spells ws (written 0 e) -> spaced ws line ->
  parse_expression line = Ok e.
Proof.
  intros e ws line W F H. unfold parse_expression. rewrite (spaced_tokens _ _ H _ F). cbn [bind].
  rewrite expression_roundtrip; [reflexivity|exact W|]. intros X. cbn in X. intuition discriminate.
Qed.

Lemma numeral_bound : forall base s n v, known_base base -> numeral base s n v ->
  0 <= n /\ 0 <= v < base ^ n.
Proof.
  intros base s n v Hb H. assert (1 < base) as B by (unfold known_base in Hb; lia).
  induction H as [|c d s n v Hd H IH]; [cbn; lia|]. destruct IH as [I1 I2].
  split; [lia|]. rewrite Z.pow_add_r, Z.pow_1_r by lia.
  assert (0 <= d < base) as D.
  { destruct Hd as [D1 D2]. split; [|exact D1]. clear - D2.
    destruct D2 as [D2|D2]; revert D2; destruct c as [[] [] [] [] [] [] [] []]; cbn; intros E; try discriminate E;
      injection E as <-; lia. }
  nia.
Qed.
Lemma sized_cast : forall base digits n v t, (base = 16 /\ digits = 2 \/ base = 2 /\ digits = 8) ->
  sized_type digits n t -> 0 <= v < base ^ n -> n <= 3 * digits -> 0 <= n -> cast_to t v = v.
Proof.
  intros base digits n v t Hb Ht Hv Hn Hn0.
  assert (forall k, n <= k * digits -> base ^ n <= 2 ^ (8 * k)) as K.
  { intros k L. destruct Hb as [[-> ->]|[-> ->]].
    - change 16 with (2 ^ 4). rewrite <- Z.pow_mul_r by lia. apply Z.pow_le_mono_r; lia.
    - apply Z.pow_le_mono_r; lia. }
  destruct Ht as [[H ->]|[[H ->]|[H ->]]]; cbn [cast_to].
  - rewrite land_ff. pose proof (K 1 ltac:(lia)). change (2 ^ (8 * 1)) with 256 in *. apply Z.mod_small. lia.
  - rewrite land_ffff. pose proof (K 2 ltac:(lia)). change (2 ^ (8 * 2)) with 65536 in *. apply Z.mod_small. lia.
  - rewrite land_ffffff. pose proof (K 3 ltac:(lia)). change (2 ^ (8 * 3)) with 16777216 in *. apply Z.mod_small. lia.
Qed.

Lemma literal_expressions :
  (forall ds n v, numeral 16 ds n v -> 0 < n <= 6 ->
     exists t, sized_type 2 n t /\
       parse_expression ("$" ++ ds) = Ok (ELit v t) /\ parse_expression ("0x" ++ ds) = Ok (ELit v t)) /\
  (forall ds n v, numeral 2 ds n v -> 0 < n <= 24 ->
     exists t, sized_type 8 n t /\ parse_expression ("%" ++ ds) = Ok (ELit v t)) /\
  (forall ds n v, numeral 10 ds n v -> 0 < n -> v <= int_max ->
     parse_expression ds = Ok (ELit v T_unknown)).
Proof.
  assert (tokenize "" = Ok [TEol]) as H0 by reflexivity.
  assert (forall base, ends_numeral base "") as HE by (intros base c r d X; discriminate X).
  destruct (literals "" [TEol] H0) as (L1 & L2 & L3).
  assert (forall s v t, tokenize s = Ok [TLit v t; TEol] -> cast_to t v = v -> parse_expression s = Ok (ELit v t)) as K.
  { intros s v t H C. apply (parse_expression_tokens s [TLit v t]); [exact H|].
    apply g_term, g_factor, g_atom. rewrite <- C at 2. apply g_lit. }
  split; [|split].
  - intros ds n v H Hn. destruct (numeral_bound 16 ds n v ltac:(right; right; reflexivity) H) as [B1 B2].
    assert (v <= int_max) as Hv.
    { assert (16 ^ n <= 16 ^ 6) by (apply Z.pow_le_mono_r; lia). change (16 ^ 6) with 16777216 in *. unfold int_max. lia. }
    destruct (L1 ds n v H ltac:(lia) Hv (HE 16)) as (t & Ht & T1 & T2 & _). rewrite sapp_nil_r in T1, T2.
    exists t. split; [exact Ht|].
    assert (cast_to t v = v) as C by (apply (sized_cast 16 2 n); try exact Ht; lia).
    split; apply K; assumption.
  - intros ds n v H Hn. destruct (numeral_bound 2 ds n v ltac:(left; reflexivity) H) as [B1 B2].
    assert (v <= int_max) as Hv.
    { assert (2 ^ n <= 2 ^ 24) by (apply Z.pow_le_mono_r; lia). change (2 ^ 24) with 16777216 in *. unfold int_max. lia. }
    destruct (L2 ds n v H ltac:(lia) Hv (HE 2)) as (t & Ht & T1). rewrite sapp_nil_r in T1.
    exists t. split; [exact Ht|]. apply K; [exact T1|].
    apply (sized_cast 2 8 n); try exact Ht; lia.
  - intros ds n v H Hn Hv. apply K; [|reflexivity].
    pose proof (L3 ds n v H Hn Hv (HE 10) ltac:(intros x r _ X; discriminate X)) as T. rewrite sapp_nil_r in T. exact T.
Qed.
