(** Reading numbers from the command line. *)
From Verif Require Import Base BaseProofs ModelNumeric ModelAddress ModelExpr ModelState ModelMap ModelToken ModelRom ModelMain SpecText SpecMain TokenProofs TextProofs FileProofs.
Open Scope string_scope.
Open Scope Z_scope.
Local Transparent span.

Lemma spaces_all : forall s, spaces s -> str_all is_space s = true.
Proof.
  induction s as [|c s IH]; intros H; [reflexivity|]. cbn. rewrite (H "" c s eq_refl). apply IH. intros a d b E. apply (H (String c a) d b). cbn. rewrite E. reflexivity.
Qed.
Lemma all_numeral : forall base s, known_base base -> str_all (digit_test base) s = true -> exists n v, numeral base s n v /\ digits_value base 0 s = v.
Proof.
  intros base s KB. assert (X : forall u, str_all (digit_test base) u = true -> exists n v, numeral base u n v).
  { induction u as [|c u IH]; intros H; [exists 0, 0; constructor|]. cbn in H. apply andb_true_iff in H. destruct H as [H1 H2]. destruct (IH H2) as (n & v & N).
    eexists _, _. constructor; [apply (digit_iff base c (digit_value c) KB); auto|exact N]. }
  intros H. destruct (X s H) as (n & v & N). exists n, v. split; [exact N|]. destruct (numeral_facts _ _ _ _ KB N) as (_ & _ & _ & D). rewrite D. lia.
Qed.
Lemma sat_ends : forall base s, known_base base -> hd_sat (digit_test base) s = false -> ends_numeral base s.
Proof. intros base s KB H c r d -> D. apply (digit_iff base c d KB) in D. cbn in H. destruct D as [D _]. congruence. Qed.

(** ** The digits. *)
Definition body (base : Z) (s : string) (a : Z) : Prop := exists ds n rest, s = ds ++ rest /\ numeral base ds n a /\ 0 < n /\ ends_numeral base rest.
Lemma body_unique : forall base s a b, known_base base -> body base s a -> body base s b -> a = b.
Proof.
  intros base s a b KB (ds & n & rest & -> & N & P & E) (ds' & n' & rest' & E' & N' & P' & R').
  destruct (numeral_facts _ _ _ _ KB N) as (A1 & _ & _ & D1). destruct (numeral_facts _ _ _ _ KB N') as (A2 & _ & _ & D2).
  pose proof (span_exact (digit_test base) ds rest A1 (ends_numeral_sat _ _ KB E)) as S1. pose proof (span_exact (digit_test base) ds' rest' A2 (ends_numeral_sat _ _ KB R')) as S2.
  rewrite E', S2 in S1. injection S1 as -> ->. specialize (D1 0). specialize (D2 0). lia.
Qed.
Lemma digits_cases : forall base neg lo hi s, known_base base ->
  (exists a, body base s a /\ scan_digits base (digit_test base) neg lo hi s =
     let v := if neg then - a else a in if (lo <=? v) && (v <=? hi) then Ok (Scanned v) else UB UB_overflow) \/
  ((forall a, ~ body base s a) /\ scan_digits base (digit_test base) neg lo hi s = Ok Mismatch).
Proof.
  intros base neg lo hi s KB. unfold scan_digits. destruct (span (digit_test base) s) as [ds rest] eqn:S. pose proof (span_split _ _ _ _ S) as (E & A & H).
  destruct ds as [|c ds].
  - right. split; [|reflexivity]. intros a (ds' & n & rest' & E' & N & P & R). pose proof (numeral_head _ _ _ _ rest' KB N P) as HD. cbn in E. rewrite <- E', E in HD. congruence.
  - left. destruct (all_numeral _ _ KB A) as (n & v & N & D). exists v. split; [|rewrite D; reflexivity].
    exists (String c ds), n, rest. split; [exact E|]. split; [exact N|]. split; [|apply sat_ends; assumption].
    destruct (numeral_facts _ _ _ _ KB N) as (_ & L & _). cbn in L. lia.
Qed.

(** ** Sign and prefix. *)
Definition drop_prefix (t : string) : string := match t with String "0" (String ("x" | "X") t') => t' | _ => t end.
Lemma drop_spec : forall t, (exists x t', (x = "x"%char \/ x = "X"%char) /\ t = String "0" (String x t') /\ drop_prefix t = t') \/
  ((forall x t', t = String "0" (String x t') -> x <> "x"%char /\ x <> "X"%char) /\ drop_prefix t = t).
Proof.
  intros t. destruct t as [|c t]; [right; split; [discriminate|reflexivity]|].
  destruct (ascii_dec c "0") as [->|N].
  - destruct t as [|x t]; [right; split; [discriminate|reflexivity]|].
    destruct (ascii_dec x "x") as [->|N1]; [left; exists "x"%char, t; auto|]. destruct (ascii_dec x "X") as [->|N2]; [left; exists "X"%char, t; auto|].
    right. split; [intros y t' E; injection E as <- <-; auto|].
    clear -N1 N2. destruct x as [[] [] [] [] [] [] [] []]; try reflexivity; exfalso; [apply N1|apply N2]; reflexivity.
  - right. split; [intros y t' E; injection E as E _; contradiction|]. clear -N. destruct c as [[] [] [] [] [] [] [] []]; try reflexivity; exfalso; apply N; reflexivity.
Qed.
Lemma sign_spec : forall t, exists sg k, sign_of sg k /\ t = sg ++ snd (take_sign t) /\ (k = if fst (take_sign t) then -1 else 1) /\
  (sg = "" -> forall c r, t = String c r -> c <> "-"%char /\ c <> "+"%char).
Proof.
  intros t. destruct t as [|c t]; [exists "", 1; repeat split; try discriminate; left; auto|].
  destruct (ascii_dec c "-") as [->|N1]; [exists "-", (-1); repeat split; try discriminate; right; auto|].
  destruct (ascii_dec c "+") as [->|N2]; [exists "+", 1; repeat split; try discriminate; left; auto|].
  exists "", 1. assert (E : take_sign (String c t) = (false, String c t)).
  { clear -N1 N2. destruct c as [[] [] [] [] [] [] [] []]; try reflexivity; exfalso; [apply N2|apply N1]; reflexivity. }
  rewrite E. split; [left; auto|]. split; [reflexivity|]. split; [reflexivity|]. intros _ d r X. injection X as <- _. auto.
Qed.
Lemma digit_plain : forall base c, digit_test base c = true -> is_space c = false /\ c <> "-"%char /\ c <> "+"%char /\ c <> "x"%char /\ c <> "X"%char.
Proof.
  intros base c. unfold digit_test. destruct (base =? 16); [|destruct (base =? 10)]; destruct c as [[] [] [] [] [] [] [] []]; intros H; try discriminate H; repeat split; discriminate.
Qed.
Lemma sign_taken : forall sg k u, sign_of sg k -> (forall c r, u = String c r -> c <> "-"%char /\ c <> "+"%char) ->
  take_sign (sg ++ u) = ((k =? -1), u).
Proof.
  intros sg k u [[[->| ->] ->]|[-> ->]] H; try reflexivity. cbn. destruct u as [|c u]; [reflexivity|]. destruct (H c u eq_refl) as [N1 N2].
  clear -N1 N2. destruct c as [[] [] [] [] [] [] [] []]; try reflexivity; exfalso; [apply N2|apply N1]; reflexivity.
Qed.
Lemma sign_strip : forall sg k u, sign_of sg k -> hd_sat is_space u = false -> strip_leading (sg ++ u) = sg ++ u.
Proof. intros sg k u [[[->| ->] _]|[-> _]] H; try reflexivity. cbn. destruct u as [|c u]; [reflexivity|]. cbn in *. rewrite H. reflexivity. Qed.
Lemma sat_plain : forall base u, hd_sat (digit_test base) u = true -> hd_sat is_space u = false /\ (forall c r, u = String c r -> c <> "-"%char /\ c <> "+"%char) /\ u <> "".
Proof.
  intros base [|c u] H; [discriminate H|]. cbn in H. destruct (digit_plain _ _ H) as (A & B & C & _). split; [exact A|]. split; [|discriminate]. intros d r E. injection E as <- <-. auto.
Qed.
(** The digits behind space, sign and prefix. *)
Definition inner (base : Z) (s : string) : string :=
  let t := snd (take_sign (strip_leading s)) in if base =? 16 then drop_prefix t else t.
Definition minus (s : string) : bool := fst (take_sign (strip_leading s)).
Lemma number_iff : forall base s v, known_base base ->
  (number base s v <-> strip_leading s <> "" /\ exists a, body base (inner base s) a /\ v = if minus s then - a else a).
Proof.
  intros base s v KB. split.
  - intros (sp & sg & k & pre & ds & n & a & rest & -> & SP & SG & PRE & N & P & E & ->).
    pose proof (numeral_head _ _ _ _ rest KB N P) as HD.
    assert (U : (forall c r, pre ++ ds ++ rest = String c r -> c <> "-"%char /\ c <> "+"%char) /\ hd_sat is_space (pre ++ ds ++ rest) = false /\ pre ++ ds ++ rest <> "").
    { destruct (sat_plain _ _ HD) as (A & B & C). destruct PRE as [[-> _]|[_ [->| ->]]]; cbn [append]; auto;
      (split; [intros c r X; injection X as <- _; split; discriminate|split; [reflexivity|discriminate]]). }
    destruct U as (U1 & U2 & U3).
    assert (ST : strip_leading (sp ++ sg ++ pre ++ ds ++ rest) = sg ++ pre ++ ds ++ rest).
    { rewrite strip_spaces by (apply spaces_all; exact SP). eapply sign_strip; eauto. }
    unfold inner, minus. rewrite ST, (sign_taken _ _ _ SG U1). cbn [fst snd].
    split; [destruct SG as [[[->| ->] _]|[-> _]]; cbn; try discriminate; exact U3|].
    exists a. split; [|destruct SG as [[_ ->]|[_ ->]]; [change (1 =? -1) with false|change (-1 =? -1) with true]; cbv iota; lia].
    exists ds, n, rest. split; [|auto]. destruct PRE as [[-> NX]|[-> [->| ->]]]; [|reflexivity|reflexivity]. cbn [append].
    destruct (base =? 16) eqn:B; [|reflexivity]. apply Z.eqb_eq in B. specialize (NX B). subst base.
    destruct (drop_spec (ds ++ rest)) as [(x & t' & XX & ET & _)|[_ ET]]; [|exact ET]. exfalso.
    destruct (numeral_facts _ _ _ _ KB N) as (A1 & L & _). destruct ds as [|c0 ds]; [cbn in L; lia|]. cbn in ET. injection ET as -> ET.
    destruct ds as [|c1 ds]; [destruct (NX x t' eq_refl ET) as [NA NB]; destruct XX; contradiction|]. cbn in ET. injection ET as -> _. cbn in A1. destruct XX as [->| ->]; discriminate A1.
  - intros (NE & a & B & V). destruct (strip_leading_shape s) as (w & E1 & E2 & E3).
    destruct (sign_spec (strip_leading s)) as (sg & k & SG & E4 & K & _). destruct B as (ds & n & rest & E5 & N & P & R).
    unfold inner in E5. unfold minus in V. set (t := snd (take_sign (strip_leading s))) in *.
    assert (PR : exists pre, t = pre ++ ds ++ rest /\ ((pre = "" /\ (base = 16 -> forall x r, ds = "0" -> rest = String x r -> x <> "x"%char /\ x <> "X"%char)) \/ (base = 16 /\ (pre = "0x" \/ pre = "0X")))).
    { destruct (base =? 16) eqn:B; [apply Z.eqb_eq in B|apply Z.eqb_neq in B].
      - destruct (drop_spec t) as [(x & t' & XX & ET & D)|[NX D]]; rewrite D in E5; subst base.
        + rewrite ET, E5. destruct XX as [->| ->]; [exists "0x"|exists "0X"]; split; auto.
        + exists "". split; [exact E5|]. left. split; [reflexivity|]. intros _ x r -> ->. apply (NX x r). exact E5.
      - exists "". split; [exact E5|]. left. split; [reflexivity|]. intros X. contradiction. }
    destruct PR as (pre & ET & PR). exists w, sg, k, pre, ds, n, a, rest.
    split; [rewrite E1, E4, ET at 1; reflexivity|]. split.
    { intros x c y E. subst w. clear -E2. induction x as [|d x IH]; cbn in E2; apply andb_true_iff in E2; [apply E2|apply IH, E2]. }
    split; [exact SG|]. split; [exact PR|]. split; [exact N|]. split; [exact P|]. split; [exact R|]. subst k v. destruct (fst (take_sign (strip_leading s))); lia.
Qed.
Lemma scan_hex_eq : forall s, scan_hex s = if String.eqb (strip_leading s) "" then Ok Ended else scan_digits 16 (digit_test 16) (minus s) 0 0xffffffff (inner 16 s).
Proof.
  intros s. unfold scan_hex, minus, inner. destruct (strip_leading s) as [|c t] eqn:E; [reflexivity|]. change (String.eqb (String c t) "") with false. cbv iota. change (16 =? 16) with true. cbv iota.
  destruct (take_sign (String c t)) as [neg u]. reflexivity.
Qed.
Lemma scan_dec_eq : forall s, scan_dec s = if String.eqb (strip_leading s) "" then Ok Ended else scan_digits 10 (digit_test 10) (minus s) int_min int_max (inner 10 s).
Proof.
  intros s. unfold scan_dec, minus, inner. destruct (strip_leading s) as [|c t] eqn:E; [reflexivity|]. change (String.eqb (String c t) "") with false. cbv iota. change (10 =? 16) with false. cbv iota.
  destruct (take_sign (String c t)) as [neg u]. reflexivity.
Qed.
Lemma strip_empty : forall s, strip_leading s = "" <-> spaces s.
Proof.
  intros s. split.
  - intros E. destruct (strip_leading_shape s) as (w & E1 & E2 & _). rewrite E, sapp_nil_r in E1. subst w.
    intros x c y ->. clear -E2. induction x as [|d x IH]; cbn in E2; apply andb_true_iff in E2; [apply E2|apply IH, E2].
  - intros H. rewrite <- (sapp_nil_r s) at 1. rewrite strip_spaces by (apply spaces_all; exact H). reflexivity.
Qed.
(** What the conversions make of an argument. *)
Definition scans (base lo hi : Z) (s : string) (r : res scan) : Prop :=
  (spaces s /\ r = Ok Ended) \/ (exists v, number base s v /\ lo <= v <= hi /\ r = Ok (Scanned v)) \/
  (exists v, number base s v /\ ~ lo <= v <= hi /\ r = UB UB_overflow) \/
  (~ spaces s /\ (forall v, ~ number base s v) /\ r = Ok Mismatch).
Lemma scan_cases : forall base lo hi s, known_base base ->
  scans base lo hi s (if String.eqb (strip_leading s) "" then Ok Ended else scan_digits base (digit_test base) (minus s) lo hi (inner base s)).
Proof.
  intros base lo hi s KB. unfold scans. destruct (String.eqb_spec (strip_leading s) "") as [E|E]; [left; split; [apply strip_empty; exact E|reflexivity]|]. right.
  destruct (digits_cases base (minus s) lo hi (inner base s) KB) as [(a & B & ->)|[NB ->]].
  - cbv zeta. set (v := if minus s then - a else a). assert (NV : number base s v) by (apply number_iff; [exact KB|]; split; [exact E|]; exists a; auto).
    destruct ((lo <=? v) && (v <=? hi)) eqn:R.
    + left. exists v. apply andb_true_iff in R. split; [exact NV|]. split; [lia|reflexivity].
    + right; left. exists v. split; [exact NV|]. split; [|reflexivity]. intros X. apply andb_false_iff in R. lia.
  - right; right. split; [rewrite <- strip_empty; exact E|]. split; [|reflexivity]. intros v NV. apply number_iff in NV; [|exact KB]. destruct NV as (_ & a & B & _). exact (NB a B).
Qed.
Lemma scan_hex_cases : forall s, scans 16 0 0xffffffff s (scan_hex s).
Proof. intros s. rewrite scan_hex_eq. apply scan_cases. red. auto. Qed.
Lemma scan_dec_cases : forall s, scans 10 int_min int_max s (scan_dec s).
Proof. intros s. rewrite scan_dec_eq. apply scan_cases. red. auto. Qed.
Lemma number_not_space : forall base s v, known_base base -> number base s v -> ~ spaces s.
Proof. intros base s v KB N. apply number_iff in N; [|exact KB]. rewrite <- strip_empty. tauto. Qed.
Lemma number_unique : forall base s v w, known_base base -> number base s v -> number base s w -> v = w.
Proof.
  intros base s v w KB A B. apply number_iff in A; [|exact KB]. apply number_iff in B; [|exact KB]. destruct A as (_ & a & A & ->). destruct B as (_ & b & B & ->).
  rewrite (body_unique _ _ _ _ KB A B). reflexivity.
Qed.
Lemma scans_exact : forall base lo hi s r, known_base base -> scans base lo hi s r ->
  (forall v, r = Ok (Scanned v) <-> number base s v /\ lo <= v <= hi) /\
  (r = Ok Ended <-> spaces s) /\ (r = Ok Mismatch <-> ~ spaces s /\ forall v, ~ number base s v) /\
  (r = UB UB_overflow <-> exists v, number base s v /\ ~ lo <= v <= hi).
Proof.
  intros base lo hi s r KB [[SP ->]|[(v & N & R & ->)|[(v & N & R & ->)|(NS & NN & ->)]]].
  - assert (NN : forall v, ~ number base s v) by (intros v N; exact (number_not_space _ _ _ KB N SP)). split; [|split; [|split]].
    + intros w. split; [discriminate|]. intros [W _]. destruct (NN w W).
    + tauto.
    + split; [discriminate|]. intros [X _]. contradiction.
    + split; [discriminate|]. intros (w & W & _). destruct (NN w W).
  - pose proof (number_not_space _ _ _ KB N) as NS. split; [|split; [|split]].
    + intros w. split; [intros X; injection X as <-; auto|intros [W _]; rewrite (number_unique _ _ _ _ KB N W); reflexivity].
    + split; [discriminate|contradiction].
    + split; [discriminate|intros [_ X]; destruct (X v N)].
    + split; [discriminate|]. intros (w & W & X). rewrite (number_unique _ _ _ _ KB N W) in R. contradiction.
  - pose proof (number_not_space _ _ _ KB N) as NS. split; [|split; [|split]].
    + intros w. split; [discriminate|]. intros [W X]. rewrite (number_unique _ _ _ _ KB N W) in R. contradiction.
    + split; [discriminate|contradiction].
    + split; [discriminate|intros [_ X]; destruct (X v N)].
    + split; [eauto|reflexivity].
  - split; [|split; [|split]].
    + intros w. split; [discriminate|]. intros [W _]. destruct (NN w W).
    + split; [discriminate|contradiction].
    + tauto.
    + split; [discriminate|]. intros (w & W & _). destruct (NN w W).
Qed.
