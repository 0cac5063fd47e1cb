(** Proofs for byte ranges and range maps. *)
From Verif Require Import Base ModelNumeric ModelAddress ModelMap ModelRanges.
From Verif Require Import BaseProofs SpecArith ArithProofs SpecRanges RomProofs.

(** ** Prefixes. *)
Lemma take_while_app : forall A (f : A -> bool) l a b, take_while f l = (a, b) ->
  l = a ++ b /\ (forall x, In x a -> f x = true) /\
  match b with [] => True | y :: _ => f y = false end.
Proof.
  intros A f. induction l as [|x l IH]; intros a b H; cbn in H.
  - injection H as <- <-. repeat split. intros y [].
  - destruct (f x) eqn:E.
    + destruct (take_while f l) as [a' b'] eqn:T. injection H as <- <-.
      destruct (IH a' b' eq_refl) as [-> [H1 H2]]. repeat split; [|exact H2].
      intros y [<-|Hy]; auto.
    + injection H as <- <-. repeat split; [intros y []|exact E].
Qed.

Lemma rev_cons : forall A (l : list A) x l', rev l = x :: l' -> l = rev l' ++ [x].
Proof. intros A l x l' H. rewrite <- (rev_involutive l), H. reflexivity. Qed.
Lemma rev_nil : forall A (l : list A), rev l = [] -> l = [].
Proof. intros A l H. rewrite <- (rev_involutive l), H. reflexivity. Qed.

(** ** Canonical lists. *)
Lemma canonical_app : forall l1 l2, canonical (l1 ++ l2) <->
  canonical l1 /\ canonical l2 /\ (forall c d, In c l1 -> In d l2 -> snd c < fst d).
Proof.
  induction l1 as [|c l1 IH]; intros l2; cbn [app canonical].
  - split; [intros H; split; [exact I|split; [exact H|intros c d []]]|tauto].
  - rewrite IH. split.
    + intros (H1 & H2 & H3 & H4 & H5). repeat split; auto.
      * intros d Hd. apply H2, in_or_app. auto.
      * intros x d [<-|Hx] Hd; [apply H2, in_or_app; auto|auto].
    + intros ((H1 & H2 & H3) & H4 & H5). repeat split; auto.
      * intros d Hd. apply in_app_or in Hd. destruct Hd as [Hd|Hd]; [auto|].
        apply H5; [left; reflexivity|exact Hd].
      * intros x d Hx Hd. apply H5; [right; exact Hx|exact Hd].
Qed.
Lemma canonical_in : forall r c, canonical r -> In c r -> fst c < snd c.
Proof.
  induction r as [|d r IH]; intros c H Hin; [destruct Hin|]. destruct Hin as [<-|Hin]; cbn in H; [apply H|]. apply IH; tauto.
Qed.

Lemma covers_nil : forall x, covers [] x <-> False.
Proof. intros x. split; [intros (c & [] & _)|intros []]. Qed.
Lemma covers_cons : forall c r x, covers (c :: r) x <-> inside c x \/ covers r x.
Proof.
  intros c r x. split.
  - intros (d & [<-|H] & I); [auto|]. right. exists d. auto.
  - intros [H|(d & H & I)]; [exists c|exists d]; cbn; auto.
Qed.
Lemma covers_app : forall r1 r2 x, covers (r1 ++ r2) x <-> covers r1 x \/ covers r2 x.
Proof.
  induction r1 as [|c r1 IH]; intros r2 x; cbn [app].
  - rewrite covers_nil. tauto.
  - rewrite !covers_cons, IH. tauto.
Qed.

(** Two canonical lists covering the same bytes are equal. *)
Lemma canonical_unique : forall r1 r2, canonical r1 -> canonical r2 ->
  (forall x, covers r1 x <-> covers r2 x) -> r1 = r2.
Proof.
  assert (Hmin : forall a b r, canonical ((a, b) :: r) -> covers ((a, b) :: r) a /\
            (forall x, covers ((a, b) :: r) x -> a <= x) /\
            ~ covers ((a, b) :: r) b /\ (forall x, a <= x < b -> covers ((a, b) :: r) x)).
  { intros a b r (H1 & H2 & H3). cbn [fst snd] in *. repeat split.
    - rewrite covers_cons. left. unfold inside. cbn. lia.
    - intros x Hx. rewrite covers_cons in Hx. destruct Hx as [Hx|(d & Hd & Hx)];
        unfold inside in Hx; cbn in Hx; [lia|]. specialize (H2 d Hd). lia.
    - intros Hx. rewrite covers_cons in Hx. destruct Hx as [Hx|(d & Hd & Hx)];
        unfold inside in Hx; cbn in Hx; [lia|]. specialize (H2 d Hd). lia.
    - intros x Hx. rewrite covers_cons. left. exact Hx. }
  induction r1 as [|[a b] r1 IH]; intros [|[a' b'] r2] H1 H2 E.
  - reflexivity.
  - destruct (Hmin _ _ _ H2) as [C _]. apply E in C. apply covers_nil in C. destruct C.
  - destruct (Hmin _ _ _ H1) as [C _]. apply E in C. apply covers_nil in C. destruct C.
  - destruct (Hmin _ _ _ H1) as (C1 & M1 & N1 & R1). destruct (Hmin _ _ _ H2) as (C2 & M2 & N2 & R2).
    assert (a = a').
    { apply E in C1. apply M2 in C1. apply E in C2. apply M1 in C2. lia. }
    subst a'. assert (b = b').
    { destruct (Z.lt_trichotomy b b') as [L|[L|L]]; [|exact L|].
      - exfalso. apply N1, E, R2. cbn in H1. destruct H1. cbn in *. lia.
      - exfalso. apply N2, E, R1. cbn in H2. destruct H2. cbn in *. lia. }
    subst b'. f_equal. cbn in H1, H2. apply IH; try tauto.
    intros x. specialize (E x). rewrite !covers_cons in E.
    destruct H1 as (_ & G1 & _). destruct H2 as (_ & G2 & _).
    split; intros H.
    + assert (X : covers r2 x \/ inside (a, b) x) by tauto. destruct X as [X|X]; [exact X|].
      destruct H as (d & Hd & I). specialize (G1 d Hd). unfold inside in *. cbn in *. lia.
    + assert (X : covers r1 x \/ inside (a, b) x) by tauto. destruct X as [X|X]; [exact X|].
      destruct H as (d & Hd & I). specialize (G2 d Hd). unfold inside in *. cbn in *. lia.
Qed.

(** ** Contains. *)
Lemma contains_exact : forall r x, canonical r -> (range_contains r x = true <-> covers r x).
Proof.
  intros r x H. unfold range_contains, upper_bound.
  destruct (take_while (fun c => negb (x <? fst c)) r) as [before after] eqn:T. cbn [fst].
  destruct (take_while_app _ _ _ _ _ T) as [-> [H1 H2]]. cbv beta iota in H1, H2.
  assert (Hafter : ~ covers after x).
  { destruct after as [|d after]; [rewrite covers_nil; tauto|].
    apply canonical_app in H. destruct H as (_ & (Hd & Hd' & _) & _).
    rewrite covers_cons. intros [C|(e & He & C)]; unfold inside in C; [lia|].
    specialize (Hd' e He). lia. }
  rewrite covers_app. 
  match goal with |- context [match ?t with [] => false | _ => _ end] => destruct t as [|c before'] eqn:R end.
  - apply rev_nil in R. subst before. rewrite covers_nil. split; [discriminate|tauto].
  - apply rev_cons in R. subst before. rewrite covers_app, covers_cons, covers_nil.
    assert (Hc : fst c <= x). { specialize (H1 c ltac:(apply in_or_app; right; left; reflexivity)). lia. }
    apply canonical_app in H. destruct H as (H & _). apply canonical_app in H.
    destruct H as (_ & _ & H).
    assert (Hbefore : ~ covers (rev before') x).
    { intros (d & Hd & C). specialize (H d c Hd (or_introl eq_refl)). unfold inside in C. lia. }
    split.
    + intros E. left. right. left. unfold inside. apply andb_true_iff in E. lia.
    + intros [[E|[E|E]]|E]; try tauto. unfold inside in E. apply andb_true_iff. lia.
Qed.

(** ** Claiming one chunk. *)
Lemma last_in : forall A (l : list A) d, l <> [] -> In (last l d) l.
Proof.
  induction l as [|x l IH]; intros d H; [congruence|]. destruct l as [|y l]; [left; reflexivity|].
  right. apply IH. discriminate.
Qed.
Lemma last_app_split : forall A (l : list A) d, l <> [] -> exists l', l = l' ++ [last l d].
Proof.
  intros A l d H. exists (removelast l). apply app_removelast_last. exact H.
Qed.

Lemma claim_finish_spec : forall pre a e b rest ov ok r',
  a <= e <= b -> a < b -> canonical rest -> (forall d, In d rest -> e < fst d) ->
  canonical pre -> (forall c, In c pre -> snd c < a) ->
  claim_finish pre (a, b) rest ov = (ok, r') ->
  canonical r' /\
  (forall x, covers r' x <-> covers pre x \/ a <= x < b \/ covers rest x) /\
  (ok = true <-> ov = false /\ forall x, a <= x < b -> ~ covers rest x).
Proof.
  intros pre a e b rest ov ok r' Hab Hlt Hrest He Hpre Hlo H. unfold claim_finish in H.
  cbn [fst snd] in H.
  destruct (take_while (fun c => negb (b <? fst c)) rest) as [merged rest'] eqn:T.
  destruct (take_while_app _ _ _ _ _ T) as [E [H1 H2]]. cbv beta iota in H1, H2.
  destruct merged as [|f merged'].
  - cbn [app] in E. subst rest'. injection H as <- <-.
    assert (Hfst : forall d, In d rest -> b < fst d).
    { destruct rest as [|d0 rest]; [intros d []|]. destruct Hrest as (R1 & R2 & _).
      intros d [<-|Hd]; [lia|]. specialize (R2 d Hd). lia. }
    split; [|split].
    + apply canonical_app. split; [exact Hpre|]. split.
      * cbn [canonical fst snd]. auto.
      * intros c d Hc [<-|Hd]; cbn [fst]; [auto|].
        specialize (Hlo c Hc). specialize (Hfst d Hd). lia.
    + intros x. rewrite covers_app, covers_cons. unfold inside. cbn [fst snd]. tauto.
    + rewrite negb_true_iff. split; [|tauto]. intros ->. split; [reflexivity|].
      intros x Hx (d & Hd & C). specialize (Hfst d Hd). unfold inside in C. lia.
  - set (merged := f :: merged') in *.
    assert (Hne : merged <> []) by discriminate.
    set (lst := last merged f) in *.
    destruct (last_app_split _ merged f Hne) as [init Einit]. fold lst in Einit.
    assert (Hlst : In lst merged) by (apply last_in; exact Hne).
    injection H as <- <-. rewrite E in Hrest. apply canonical_app in Hrest.
    destruct Hrest as (Hm & Hr & Hmr).
    assert (Hflst : fst lst <= b). { specialize (H1 lst Hlst). lia. }
    assert (Hsl : fst lst < snd lst) by exact (canonical_in merged lst Hm Hlst).
    assert (Hle : forall c, In c merged -> snd c <= snd lst).
    { intros c Hc. rewrite Einit in Hc, Hm. apply in_app_or in Hc.
      destruct Hc as [Hc|[<-|[]]]; [|apply Z.le_refl].
      apply canonical_app in Hm. destruct Hm as (_ & _ & Hm).
      specialize (Hm c lst Hc (or_introl eq_refl)). lia. }
    assert (He' : forall d, In d merged -> e < fst d).
    { intros d Hd. apply He. rewrite E. apply in_or_app. auto. }
    assert (Hrb : forall d, In d rest' -> Z.max b (snd lst) < fst d).
    { intros d Hd. assert (b < fst d).
      { destruct rest' as [|d0 rest'']; [destruct Hd|]. destruct Hr as (R1 & R2 & _).
        destruct Hd as [<-|Hd]; [lia|]. specialize (R2 d Hd). lia. }
      specialize (Hmr lst d Hlst Hd). lia. }
    split; [|split].
    + apply canonical_app. split; [exact Hpre|]. split.
      * cbn [canonical fst snd]. split; [lia|]. split; [exact Hrb|exact Hr].
      * intros c d Hc [<-|Hd]; cbn [fst]; [auto|].
        specialize (Hlo c Hc). specialize (Hrb d Hd). lia.
    + intros x. rewrite E, !covers_app, covers_cons. unfold inside. cbn [fst snd].
      assert (Hmx : a <= x < Z.max b (snd lst) <-> a <= x < b \/ covers merged x).
      { split.
        - intros Hx. destruct (Z.ltb_spec x b); [lia|]. right. exists lst. split; [exact Hlst|].
          unfold inside. lia.
        - intros [Hx|(d & Hd & C)]; [lia|]. specialize (Hle d Hd). specialize (He' d Hd).
          unfold inside in C. lia. }
      rewrite Hmx. tauto.
    + rewrite negb_true_iff. rewrite E.
      assert (Hf : In f merged) by (left; reflexivity).
      assert (Hff : fst f < snd f) by exact (canonical_in merged f Hm Hf).
      specialize (He' f Hf).
      split.
      * destruct (Z.ltb_spec (fst f) b); [discriminate|]. intros ->. split; [reflexivity|].
        intros x Hx. rewrite covers_app. intros [(d & Hd & C)|(d & Hd & C)].
        -- assert (fst f <= fst d).
           { destruct Hd as [<-|Hd]; [lia|]. destruct Hm as (_ & Hm & _). specialize (Hm d Hd). lia. }
           unfold inside in C. lia.
        -- specialize (Hrb d Hd). unfold inside in C. lia.
      * intros [-> Hx]. destruct (Z.ltb_spec (fst f) b); [|reflexivity].
        exfalso. apply (Hx (fst f)); [lia|]. rewrite covers_app. left. exists f.
        split; [exact Hf|]. unfold inside. lia.
Qed.

Lemma claim_chunk_spec : forall r n ok r', canonical r -> fst n < snd n ->
  claim_chunk r n = (ok, r') ->
  canonical r' /\
  (forall x, covers r' x <-> covers r x \/ inside n x) /\
  (ok = true <-> forall x, inside n x -> ~ covers r x).
Proof.
  intros r [s t] ok r' Hr Hn H. cbn [fst snd] in Hn. unfold claim_chunk in H.
  destruct r as [|c0 r0].
  { injection H as <- <-. split; [split; [exact Hn|split; [intros d []|exact I]]|]. split.
    - intros x. rewrite covers_cons, covers_nil. tauto.
    - split; [|reflexivity]. intros _ x _. rewrite covers_nil. tauto. }
  cbn [fst snd] in H. set (r := c0 :: r0) in *. clearbody r. clear c0 r0.
  unfold upper_bound in H.
  destruct (take_while (fun c => negb (s <? fst c)) r) as [before after] eqn:T.
  destruct (take_while_app _ _ _ _ _ T) as [-> [H1 H2]]. cbv beta iota in H1, H2. clear T.
  apply canonical_app in Hr. destruct Hr as (Hb & Ha & Hba).
  assert (Hafter : forall d, In d after -> s < fst d).
  { destruct after as [|d0 after]; [intros d []|]. destruct Ha as (A1 & A2 & _).
    intros d [<-|Hd]; [lia|]. specialize (A2 d Hd). lia. }
  (* the branch with no merge to the left *)
  assert (NL : (forall c, In c before -> snd c < s) ->
    match after with
    | [] => (true, (before ++ (s, t) :: after)%list)
    | q :: after' =>
        if fst q <=? t
        then claim_finish before (s, Z.max (snd q) t) after' (fst q <? t)
        else (true, (before ++ (s, t) :: after)%list)
    end = (ok, r') ->
    canonical r' /\
    (forall x, covers r' x <-> covers (before ++ after) x \/ inside (s, t) x) /\
    (ok = true <-> forall x, inside (s, t) x -> ~ covers (before ++ after) x)).
  { intros Hbs E. unfold inside. cbn [fst snd].
    assert (Hbx : forall x, s <= x -> ~ covers before x).
    { intros x Hx (d & Hd & C). specialize (Hbs d Hd). unfold inside in C. lia. }
    assert (Plain : (forall d, In d after -> t < fst d) -> (ok, r') = (true, (before ++ (s, t) :: after)%list) ->
       canonical r' /\
       (forall x, covers r' x <-> covers (before ++ after) x \/ s <= x < t) /\
       (ok = true <-> forall x, s <= x < t -> ~ covers (before ++ after) x)).
    { intros Hat E'. injection E' as -> ->. split; [|split].
      - apply canonical_app. split; [exact Hb|]. split.
        + cbn [canonical fst snd]. auto.
        + intros c d Hc [<-|Hd]; cbn [fst]; auto.
      - intros x. rewrite !covers_app, covers_cons. unfold inside. cbn [fst snd]. tauto.
      - split; [|reflexivity]. intros _ x Hx. rewrite covers_app. intros [C|(d & Hd & C)].
        + apply (Hbx x); [lia|exact C].
        + specialize (Hat d Hd). unfold inside in C. lia. }
    destruct after as [|q after'].
    { apply Plain; [intros d []|congruence]. }
    destruct (Z.leb_spec (fst q) t).
    - destruct Ha as (A1 & A2 & A3).
      assert (Hq : s < fst q) by (apply Hafter; left; reflexivity).
      destruct (claim_finish_spec before s (snd q) (Z.max (snd q) t) after' (fst q <? t) ok r')
        as (F1 & F2 & F3); auto; try lia.
      split; [exact F1|]. split.
      + intros x. rewrite F2, covers_app, covers_cons. unfold inside.
        split; [intros [?|[?|?]]|intros [[?|[?|?]]|?]]; try tauto.
        * destruct (Z.ltb_spec x t); [right; lia|]. left. right. left. lia.
        * right. left. lia.
        * right. left. lia.
      + rewrite F3. split.
        * intros [G1 G2] x Hx. rewrite covers_app, covers_cons. unfold inside. intros [C|[C|C]].
          -- apply (Hbx x); [lia|exact C].
          -- lia.
          -- apply (G2 x); [lia|exact C].
        * intros G. assert (Hqt : fst q = t).
          { destruct (Z.ltb_spec (fst q) t); [|lia]. exfalso. apply (G (fst q)); [lia|].
            rewrite covers_app, covers_cons. right. left. unfold inside. lia. }
          split; [lia|]. intros x Hx (d & Hd & C). unfold inside in C.
          specialize (A2 d Hd). lia.
    - apply Plain; [|congruence].
      intros d [<-|Hd]; [lia|]. destruct Ha as (A1 & A2 & _). specialize (A2 d Hd). lia. }
  match type of H with match ?t with _ => _ end = _ => destruct t as [|p before'] eqn:R end.
  { apply rev_nil in R. subst before. apply NL; [intros c []|exact H]. }
  apply rev_cons in R. subst before.
  apply canonical_app in Hb. destruct Hb as (Hb1 & (Hp & _) & Hbp).
  assert (Hps : fst p <= s).
  { specialize (H1 p ltac:(apply in_or_app; right; left; reflexivity)). lia. }
  assert (Hbp' : forall c, In c (rev before') -> snd c < fst p).
  { intros c Hc. apply (Hbp c p Hc). left. reflexivity. }
  assert (Hpa : forall d, In d after -> snd p < fst d).
  { intros d Hd. apply (Hba p d); [apply in_or_app; right; left; reflexivity|exact Hd]. }
  destruct (Z.leb_spec s (snd p)).
  - destruct (claim_finish_spec (rev before') (fst p) (snd p) (Z.max (snd p) t) after (s <? snd p) ok r')
      as (F1 & F2 & F3); auto; try lia.
    split; [exact F1|]. unfold inside. cbn [fst snd]. split.
    + intros x. rewrite F2, !covers_app, covers_cons, covers_nil. unfold inside.
      split; [intros [?|[?|?]]|intros [[[?|[?|?]]|?]|?]]; try tauto.
      * destruct (Z.ltb_spec x (snd p)); [left; left; right; left; lia|]. right. lia.
      * right. left. lia.
      * right. left. lia.
    + rewrite F3. split.
      * intros [G1 G2] x Hx. rewrite !covers_app, covers_cons, covers_nil. unfold inside.
        intros [[C|[C|C]]|C].
        -- destruct C as (d & Hd & C). specialize (Hbp' d Hd). unfold inside in C. lia.
        -- lia.
        -- exact C.
        -- apply (G2 x); [lia|exact C].
      * intros G. assert (Hpt : snd p = s).
        { destruct (Z.ltb_spec s (snd p)); [|lia]. exfalso. apply (G s); [lia|].
          rewrite !covers_app, covers_cons. left. right. left. unfold inside. lia. }
        split; [lia|]. intros x Hx C. destruct (Z.ltb_spec x s).
        -- destruct C as (d & Hd & C). specialize (Hpa d Hd). unfold inside in C. lia.
        -- apply (G x); [lia|]. rewrite covers_app. right. exact C.
  - apply NL; [|exact H]. intros c Hc. apply in_app_or in Hc.
    destruct Hc as [Hc|[<-|[]]]; [|lia]. specialize (Hbp' c Hc). lia.
Qed.

(** ** Claims that wrap in the bank. *)
Lemma claim_loop_spec : forall fuel r loc len succ, canonical r -> addr24 loc ->
  (0 < len -> (len - 1) / 65536 + (if offset_of loc =? 0 then 1 else 2) <= Z.of_nat fuel) ->
  exists ok r', claim_loop fuel r loc len succ = Ok (ok, r') /\ canonical r' /\
    (forall x, covers r' x <-> covers r x \/ claimed loc len x) /\
    (ok = true <-> succ = true /\ len <= 65536 /\ forall x, claimed loc len x -> ~ covers r x).
Proof.
  induction fuel as [|fuel IH]; intros r loc len succ Hr Ha Hf; cbn [claim_loop].
  - destruct (Z.ltb_spec 0 len).
    { exfalso. specialize (Hf H). destruct (offset_of loc =? 0); lia. }
    exists succ, r. split; [reflexivity|]. split; [exact Hr|]. split.
    + intros x. split; [auto|]. intros [?|(k & Hk & _)]; [assumption|lia].
    + split; [|tauto]. intros ->. repeat split; [lia|]. intros x (k & Hk & _). lia.
  - destruct (Z.ltb_spec 0 len) as [Hl|Hl].
    2:{ exists succ, r. split; [reflexivity|]. split; [exact Hr|]. split.
        + intros x. split; [auto|]. intros [?|(k & Hk & _)]; [assumption|lia].
        + split; [|tauto]. intros ->. repeat split; [lia|]. intros x (k & Hk & _). lia. }
    rewrite addr_low_spec. destruct (addr24_parts loc Ha) as (Hb & Ho & Hloc).
    set (o := offset_of loc) in *. set (b := bank_of loc) in *.
    set (size := Z.min len (65536 - o)).
    assert (Hsz : 0 < size <= 65536 - o) by lia.
    assert (Eu : add_unwrapped loc size = Ok (loc + size)).
    { unfold add_unwrapped, mk_address. rewrite to_uint32_small by lia.
      replace (loc + size <=? 16777216) with true by lia. reflexivity. }
    rewrite Eu. cbn [bind].
    destruct (claim_chunk r (loc, loc + size)) as [ok1 r1] eqn:E1.
    destruct (claim_chunk_spec r (loc, loc + size) ok1 r1 Hr) as (C1 & C2 & C3);
      [cbn; lia|exact E1|].
    rewrite addr_bank_spec. fold b.
    assert (Em : mk_address2 b 0 = b * 65536).
    { unfold mk_address2, to_uint8, to_uint16. rewrite shiftl_16.
      rewrite Z.mod_small by lia. rewrite Z.mod_0_l by lia. apply Z.lor_0_r. }
    rewrite Em.
    assert (Ha' : addr24 (b * 65536)) by (unfold addr24; lia).
    assert (Oo : offset_of (b * 65536) = 0) by (unfold offset_of; change (2^16) with 65536; lia).
    assert (Ob : bank_of (b * 65536) = b) by (unfold bank_of; change (2^16) with 65536; lia).
    destruct (IH r1 (b * 65536) (len - size) (ok1 && succ) C1 Ha') as (ok2 & r2 & E2 & D1 & D2 & D3).
    { rewrite Oo. cbn [Z.eqb]. intros Hpos. specialize (Hf Hl). destruct (Z.eqb_spec o 0); lia. }
    exists ok2, r2. split; [exact E2|]. split; [exact D1|].
    (* the set of claimed bytes splits in two *)
    assert (Split : forall x, claimed loc len x <->
                      inside (loc, loc + size) x \/ claimed (b * 65536) (len - size) x).
    { intros x. unfold claimed, inside, same_bank_plus. rewrite Oo, Ob. fold o b. cbn [fst snd].
      change (2^16) with 65536. split.
      - intros (k & Hk & ->). destruct (Z.ltb_spec k size).
        + left. rewrite Z.mod_small by lia. lia.
        + right. exists (k - size). split; [lia|].
          replace (o + k) with ((0 + (k - size)) + 1 * 65536) by lia.
          rewrite Z_mod_plus_full. reflexivity.
      - intros [Hx|(k & Hk & ->)].
        + exists (x - loc). split; [lia|]. rewrite Z.mod_small by lia. lia.
        + exists (k + size). split; [lia|].
          replace (o + (k + size)) with ((0 + k) + 1 * 65536) by lia.
          rewrite Z_mod_plus_full. reflexivity. }
    split.
    + intros x. rewrite D2, C2, Split. tauto.
    + rewrite D3, andb_true_iff, C3. split.
      * intros ((G1 & G2) & G3 & G4). split; [exact G2|].
        assert (Hlen : len <= 65536).
        { destruct (Z.leb_spec len 65536); [assumption|]. exfalso.
          (* byte o of the second part is the first byte of the first *)
          apply (G4 loc).
          - exists o. split; [lia|]. unfold same_bank_plus. rewrite Oo, Ob.
            change (2^16) with 65536. rewrite Z.mod_small by lia. lia.
          - apply C2. right. unfold inside. cbn. lia. }
        split; [exact Hlen|]. intros x Hx. apply Split in Hx. destruct Hx as [Hx|Hx]; [auto|].
        intros Cx. apply (G4 x Hx). apply C2. auto.
      * intros (G1 & G2 & G3). split; [split; [|exact G1]|].
        -- intros x Hx. apply G3. apply Split. auto.
        -- split; [lia|]. intros x Hx. rewrite C2. intros [Cx|Cx].
           ++ apply (G3 x); [apply Split; auto|exact Cx].
           ++ destruct Hx as (k & Hk & ->). unfold inside, same_bank_plus in Cx.
              rewrite Oo, Ob in Cx. change (2^16) with 65536 in Cx. cbn [fst snd] in Cx.
              rewrite Z.mod_small in Cx by lia. lia.
Qed.

Lemma claim_bytes_spec : forall r loc len, canonical r -> addr24 loc ->
  exists ok r', claim_bytes r loc len = Ok (ok, r') /\ canonical r' /\
    (forall x, covers r' x <-> covers r x \/ claimed loc len x) /\
    (ok = true <-> len <= 65536 /\ forall x, claimed loc len x -> ~ covers r x).
Proof.
  intros r loc len Hr Ha. unfold claim_bytes.
  destruct (claim_loop_spec (Z.to_nat (len / 65536 + 2)) r loc len true Hr Ha)
    as (ok & r' & E & H1 & H2 & H3).
  { destruct (offset_of loc =? 0); lia. }
  exists ok, r'. repeat split; auto; try apply H2; try tauto.
Qed.

Lemma claims_sound : forall h r, claims h r ->
  canonical r /\ (forall x, covers r x <-> exists loc len ok, In (loc, len, ok) h /\ claimed loc len x).
Proof.
  intros h r H. induction H as [|h r loc len ok r' H IH Ha E].
  - split; [exact I|]. intros x. rewrite covers_nil. split; [intros []|].
    intros (? & ? & ? & [] & _).
  - destruct IH as [C1 C2].
    destruct (claim_bytes_spec r loc len C1 Ha) as (ok2 & r2 & E' & D1 & D2 & _).
    rewrite E in E'. injection E' as <- <-. split; [exact D1|].
    intros x. rewrite D2, C2. split.
    + intros [(l & n & o & Hi & Hc)|Hc]; [exists l, n, o|exists loc, len, ok]; cbn; auto.
    + intros (l & n & o & [Hi|Hi] & Hc); [injection Hi as <- <- <-; auto|].
      left. exists l, n, o. auto.
Qed.

Lemma claims_history : forall h r, claims h r ->
  canonical r /\
  (forall x, range_contains r x = true <-> exists loc len ok, In (loc, len, ok) h /\ claimed loc len x) /\
  (forall loc len, addr24 loc ->
     exists ok r', claim_bytes r loc len = Ok (ok, r') /\
       (ok = true <-> len <= 2 ^ 16 /\
          forall x l n o, claimed loc len x -> In (l, n, o) h -> ~ claimed l n x)).
Proof.
  intros h r H. destruct (claims_sound h r H) as [C1 C2]. split; [exact C1|]. split.
  - intros x. rewrite contains_exact by exact C1. apply C2.
  - intros loc len Ha. destruct (claim_bytes_spec r loc len C1 Ha) as (ok & r' & E & _ & _ & D3).
    exists ok, r'. split; [exact E|]. rewrite D3. change (2^16) with 65536.
    split; intros [G1 G2]; (split; [exact G1|]).
    + intros x l n o Hx Hi Hc. apply (G2 x Hx), C2. eauto.
    + intros x Hx Hc. apply C2 in Hc. destruct Hc as (l & n & o & Hi & Hc).
      exact (G2 x l n o Hx Hi Hc).
Qed.

(** ** Range maps. *)
(** Entries with nonempty, ordered, disjoint keys. *)
Fixpoint entries_ok {T} (m : list (chunk * T)) : Prop :=
  match m with
  | [] => True
  | (c, _) :: m' => fst c < snd c /\ (forall d w, In (d, w) m' -> snd c <= fst d) /\ entries_ok m'
  end.

Lemma entries_app : forall T (m1 m2 : list (chunk * T)), entries_ok (m1 ++ m2) ->
  entries_ok m1 /\ entries_ok m2 /\
  (forall c v d w, In (c, v) m1 -> In (d, w) m2 -> snd c <= fst d).
Proof.
  induction m1 as [|[c v] m1 IH]; intros m2 H; cbn [app entries_ok] in *.
  - repeat split; auto. intros c v d w [].
  - destruct H as (H1 & H2 & H3). destruct (IH _ H3) as (I1 & I2 & I3). repeat split; auto.
    + intros d w Hd. eapply H2, in_or_app. left. exact Hd.
    + intros c' v' d w [E|Hc] Hd.
      * injection E as <- <-. eapply H2, in_or_app. right. exact Hd.
      * eauto.
Qed.
Lemma entries_in : forall T (m : list (chunk * T)) c v, entries_ok m -> In (c, v) m -> fst c < snd c.
Proof.
  induction m as [|[d w] m IH]; intros c v H Hin; [destruct Hin|]. destruct Hin as [E|Hin]; cbn in H.
  - injection E as -> ->. tauto.
  - eapply IH; [tauto|exact Hin].
Qed.

Lemma lookup_exact : forall T (u : list chunk) (m : list (chunk * T)) a v, entries_ok m ->
  (rm_lookup (RangeMap u m) a = Some v <-> exists c, In (c, v) m /\ inside c a).
Proof.
  intros T u m a v H. unfold rm_lookup. cbn [rm_map].
  destruct (take_while (fun kv => negb (chunk_ltb (a, a) (fst kv))) m) as [before after] eqn:E.
  destruct (take_while_app _ _ _ _ _ E) as [-> [H1 H2]]. cbv beta iota in H1, H2. clear E.
  destruct (entries_app _ _ _ H) as (Hb & Hf & Hbf).
  (* entries before do not start after a; entries after, apart from a first one at a, start after a *)
  assert (B : forall c w, In (c, w) before -> fst c < a).
  { intros c w Hc. specialize (H1 _ Hc). cbn [fst] in H1.
    pose proof (entries_in _ _ _ _ Hb Hc). unfold chunk_ltb in H1. cbn [fst snd] in H1. lia. }
  set (left := match rev before with
               | [] => None
               | (c, v0) :: _ => if (fst c <=? a) && (a <? snd c) then Some v0 else None
               end).
  assert (L : left = Some v <-> exists c, In (c, v) before /\ inside c a).
  { unfold left.
    match goal with |- match ?t with _ => _ end = _ <-> _ => destruct t as [|[c w] before'] eqn:R end.
    - apply rev_nil in R. subst before. split; [discriminate|intros (c & [] & _)].
    - apply rev_cons in R. subst before. destruct (entries_app _ _ _ Hb) as (_ & _ & Hbb).
      split.
      + destruct ((fst c <=? a) && (a <? snd c)) eqn:Q; [|discriminate].
        intros E. injection E as <-. exists c. split; [apply in_or_app; right; left; reflexivity|].
        unfold inside. lia.
      + intros (d & Hd & I). apply in_app_or in Hd. destruct Hd as [Hd|[Hd|[]]].
        * specialize (Hbb d v c w Hd (or_introl eq_refl)). unfold inside in I.
          assert (fst c < a) by (eapply B; apply in_or_app; right; left; reflexivity). lia.
        * injection Hd as -> ->. unfold inside in I.
          replace ((fst d <=? a) && (a <? snd d)) with true by lia. reflexivity. }
  destruct after as [|[c w] after].
  { rewrite app_nil_r. exact L. }
  cbn [fst] in H2. destruct Hf as (F1 & F2 & _).
  assert (A : a <= fst c).
  { unfold chunk_ltb in H2. cbn [fst snd] in H2. lia. }
  destruct (Z.eqb_spec (fst c) a) as [Ea|Ea].
  - split.
    + intros E. injection E as <-. exists c. split; [apply in_or_app; right; left; reflexivity|].
      unfold inside. lia.
    + intros (d & Hd & I). unfold inside in I. apply in_app_or in Hd. destruct Hd as [Hd|[Hd|Hd]].
      * specialize (Hbf d v c w Hd (or_introl eq_refl)). lia.
      * injection Hd as -> ->. reflexivity.
      * specialize (F2 d v Hd). lia.
  - rewrite L. split.
    + intros (d & Hd & I). exists d. split; [apply in_or_app; auto|exact I].
    + intros (d & Hd & I). unfold inside in I. apply in_app_or in Hd. destruct Hd as [Hd|[Hd|Hd]].
      * exists d. auto.
      * injection Hd as -> ->. lia.
      * specialize (F2 d v Hd). lia.
Qed.

Lemma emplace_exact : forall T (k : chunk) (v : T) m, entries_ok m -> fst k < snd k ->
  (forall c w x, In (c, w) m -> inside c x -> ~ inside k x) ->
  entries_ok (cm_emplace k v m) /\
  (forall e, In e (cm_emplace k v m) <-> e = (k, v) \/ In e m).
Proof.
  intros T k v. induction m as [|[j w] m IH]; intros H Hk Hd.
  - cbn. repeat split; auto; [intros d w []| |]; tauto || firstorder.
  - cbn [cm_emplace]. destruct H as (H1 & H2 & H3).
    assert (Hj : snd j <= fst k \/ snd k <= fst j).
    { destruct (Z.leb_spec (snd j) (fst k)); [auto|]. destruct (Z.leb_spec (snd k) (fst j)); [auto|].
      exfalso. apply (Hd j w (Z.max (fst j) (fst k))); [left; reflexivity| |]; unfold inside; lia. }
    unfold chunk_ltb.
    destruct ((fst j <? fst k) || (fst j =? fst k) && (snd j <? snd k)) eqn:Q1.
    + destruct IH as [I1 I2]; auto.
      { intros c w' x Hc. apply (Hd c w' x). right. exact Hc. }
      split.
      * cbn [entries_ok]. repeat split; auto. intros d u Hin. apply I2 in Hin.
        destruct Hin as [E|Hin]; [injection E as -> ->; lia|eauto].
      * intros e. cbn [In]. rewrite I2. tauto.
    + destruct ((fst k <? fst j) || (fst k =? fst j) && (snd k <? snd j)) eqn:Q2.
      * split.
        -- cbn [entries_ok]. repeat split; auto. intros d u [E|Hin].
           ++ injection E as -> ->. lia.
           ++ specialize (H2 d u Hin). lia.
        -- intros e. cbn [In]. split; [intros [?|[?|?]]|intros [?|[?|?]]]; auto.
      * exfalso. lia.
Qed.

Lemma claim_all_spec : forall cs r, canonical r -> canonical cs ->
  match claim_all r cs with
  | Some r' => canonical r' /\ (forall x, covers r' x <-> covers r x \/ covers cs x) /\
               (forall x, covers cs x -> ~ covers r x)
  | None => exists x, covers cs x /\ covers r x
  end.
Proof.
  induction cs as [|c cs IH]; intros r Hr Hcs; cbn [claim_all].
  - split; [exact Hr|]. split; [intros x|intros x C]; rewrite covers_nil in *; tauto.
  - destruct (claim_chunk r c) as [ok r1] eqn:E. destruct Hcs as (H1 & H2 & H3).
    destruct (claim_chunk_spec r c ok r1 Hr H1 E) as (C1 & C2 & C3).
    destruct ok.
    + specialize (IH r1 C1 H3). destruct (claim_all r1 cs) as [r'|].
      * destruct IH as (I1 & I2 & I3). split; [exact I1|]. split.
        -- intros x. rewrite I2, C2, covers_cons. tauto.
        -- intros x. rewrite covers_cons. intros [Hx|Hx].
           ++ apply C3; [reflexivity|exact Hx].
           ++ intros Cx. apply (I3 x Hx), C2. auto.
      * destruct IH as (x & Hx & Cx). apply C2 in Cx. destruct Cx as [Cx|Cx].
        -- exists x. rewrite covers_cons. auto.
        -- exfalso. destruct Hx as (d & Hd & I). specialize (H2 d Hd). unfold inside in *. lia.
    + assert (N : ~ forall x, inside c x -> ~ covers r x).
      { intros N. apply C3 in N. discriminate. }
      (* coverage is decidable, hence a witness *)
      assert (D : exists x, inside c x /\ covers r x).
      { clear - N H1 Hr.
        assert (F : forall n, (exists x, fst c <= x < fst c + Z.of_nat n /\ inside c x /\ covers r x) \/
                              (forall x, fst c <= x < fst c + Z.of_nat n -> inside c x -> ~ covers r x)).
        { induction n as [|n [IH|IH]].
          - right. intros x Hx. lia.
          - left. destruct IH as (x & Hx & I). exists x. split; [lia|exact I].
          - set (x := fst c + Z.of_nat n).
            destruct (range_contains r x) eqn:Q.
            + apply contains_exact in Q; [|exact Hr].
              destruct (Z.ltb_spec x (snd c)).
              * left. exists x. unfold inside. repeat split; auto; unfold x; lia.
              * right. intros y Hy I. unfold inside in I. apply IH; [unfold x in *; lia|exact I].
            + right. intros y Hy I. destruct (Z.eqb_spec y x).
              * subst y. intros C. apply contains_exact in C; [congruence|exact Hr].
              * apply IH; [unfold x in *; lia|exact I]. }
        destruct (F (Z.to_nat (snd c - fst c))) as [(x & _ & I)|G]; [eauto|].
        exfalso. apply N. intros x I. apply G; [|exact I]. unfold inside in I. lia. }
      destruct D as (x & I & C). exists x. rewrite covers_cons. auto.
Qed.

Lemma emplace_all : forall T (v : T) cs m, entries_ok m -> canonical cs ->
  (forall c w x, In (c, w) m -> inside c x -> ~ covers cs x) ->
  entries_ok (fold_left (fun mm c => cm_emplace c v mm) cs m) /\
  (forall e, In e (fold_left (fun mm c => cm_emplace c v mm) cs m) <->
     (exists c, In c cs /\ e = (c, v)) \/ In e m).
Proof.
  intros T v. induction cs as [|c cs IH]; intros m Hm Hcs Hd; cbn [fold_left].
  - split; [exact Hm|]. intros e. split; [auto|]. intros [(c & [] & _)|H]; exact H.
  - destruct Hcs as (H1 & H2 & H3).
    destruct (emplace_exact T c v m Hm H1) as [E1 E2].
    { intros d w x Hin I J. apply (Hd d w x Hin I). rewrite covers_cons. auto. }
    destruct (IH _ E1 H3) as [I1 I2].
    { intros d w x Hin I C. apply E2 in Hin. destruct Hin as [E|Hin].
      - injection E as -> ->. destruct C as (e & He & J). specialize (H2 e He). unfold inside in *. lia.
      - apply (Hd d w x Hin I). rewrite covers_cons. auto. }
    split; [exact I1|]. intros e. rewrite I2, E2. cbn [In]. split.
    + intros [(d & Hin & ->)|[->|Hin]]; [left; eauto|left; eauto|auto].
    + intros [(d & [<-|Hin] & ->)|Hin]; [auto|left; eauto|auto].
Qed.

Definition holds {T} (m : rangemap T) (log : list (list chunk * T)) : Prop :=
  canonical (rm_used m) /\ entries_ok (rm_map m) /\
  (forall x, covers (rm_used m) x <-> exists cs v, In (cs, v) log /\ covers cs x) /\
  (forall c v, In (c, v) (rm_map m) <-> exists cs, In (cs, v) log /\ In c cs).

Lemma insert_exact : forall T (m : rangemap T) log cs v ok m', holds m log -> canonical cs ->
  rm_insert m cs v = (ok, m') ->
  (ok = true <-> forall cs' w x, In (cs', w) log -> covers cs x -> ~ covers cs' x) /\
  (ok = true -> holds m' ((cs, v) :: log)) /\
  (ok = false -> m' = m).
Proof.
  intros T m log cs v ok m' (H1 & H2 & H3 & H4) Hcs E. unfold rm_insert in E.
  pose proof (claim_all_spec cs (rm_used m) H1 Hcs) as S.
  destruct (claim_all (rm_used m) cs) as [used|]; injection E as <- <-.
  - destruct S as (S1 & S2 & S3). split; [|split; [|discriminate]].
    + split; [|reflexivity]. intros _ cs' w x Hin Hx Hx'. apply (S3 x Hx), H3. eauto.
    + intros _. destruct (emplace_all T v cs (rm_map m) H2 Hcs) as [M1 M2].
      { intros c w x Hin I C. apply (S3 x C), H3. apply H4 in Hin.
        destruct Hin as (cs' & Hin & Hc). exists cs', w. split; [exact Hin|]. exists c. auto. }
      split; [exact S1|]. split; [exact M1|]. cbn [rm_used rm_map]. split.
      * intros x. rewrite S2, H3. split.
        -- intros [(cs' & w & Hin & C)|C]; [exists cs', w|exists cs, v]; cbn; auto.
        -- intros (cs' & w & [Hin|Hin] & C); [injection Hin as <- <-; auto|left; eauto].
      * intros c w. rewrite M2, H4. split.
        -- intros [(d & Hd & Ee)|(cs' & Hin & Hc)].
           ++ injection Ee as -> ->. exists cs. cbn. auto.
           ++ exists cs'. cbn. auto.
        -- intros (cs' & [Hin|Hin] & Hc).
           ++ injection Hin as -> ->. left. eauto.
           ++ right. eauto.
  - destruct S as (x & Hx & Cx). split; [|split; [discriminate|reflexivity]].
    split; [discriminate|]. intros G. exfalso. apply H3 in Cx. destruct Cx as (cs' & w & Hin & C).
    exact (G cs' w x Hin Hx C).
Qed.

Lemma inserts_holds : forall T (m : rangemap T) log, inserts m log -> holds m log.
Proof.
  intros T m log H. induction H as [|m log cs v m' H IH Hc E|m log cs v m' H IH Hc E].
  - split; [exact I|]. split; [exact I|]. cbn. split.
    + intros x. rewrite covers_nil. split; [intros []|intros (? & ? & [] & _)].
    + intros c v. split; [intros []|intros (? & [] & _)].
  - destruct (insert_exact T m log cs v true m' IH Hc E) as (_ & K & _). auto.
  - destruct (insert_exact T m log cs v false m' IH Hc E) as (_ & _ & K). rewrite K; auto.
Qed.

Lemma rangemap_insert : forall T (m : rangemap T) log cs v, inserts m log -> canonical cs ->
  (fst (rm_insert m cs v) = true <->
     forall cs' w x, In (cs', w) log -> covers cs x -> ~ covers cs' x) /\
  (fst (rm_insert m cs v) = false -> snd (rm_insert m cs v) = m).
Proof.
  intros T m log cs v H Hc. destruct (rm_insert m cs v) as [ok m'] eqn:E. cbn [fst snd].
  destruct (insert_exact T m log cs v ok m' (inserts_holds T m log H) Hc E) as (K1 & _ & K3). auto.
Qed.

Lemma rangemap_lookup : forall T (m : rangemap T) log a, inserts m log ->
  (forall v, rm_lookup m a = Some v <-> exists cs, In (cs, v) log /\ covers cs a) /\
  (rm_contains m a = true <-> exists v, rm_lookup m a = Some v).
Proof.
  intros T m log a H. destruct (inserts_holds T m log H) as (H1 & H2 & H3 & H4).
  assert (L : forall v, rm_lookup m a = Some v <-> exists cs, In (cs, v) log /\ covers cs a).
  { intros v. destruct m as [u mm]. cbn [rm_used rm_map] in *.
    rewrite (lookup_exact T u mm a v H2). split.
    - intros (c & Hc & I). apply H4 in Hc. destruct Hc as (cs & Hin & Hc).
      exists cs. split; [exact Hin|]. exists c. auto.
    - intros (cs & Hin & c & Hc & I). exists c. split; [|exact I]. apply H4. eauto. }
  split; [exact L|]. unfold rm_contains. rewrite contains_exact by exact H1. rewrite H3. split.
  - intros (cs & v & Hin & C). exists v. apply L. eauto.
  - intros (v & E). apply L in E. destruct E as (cs & Hin & C). eauto.
Qed.
