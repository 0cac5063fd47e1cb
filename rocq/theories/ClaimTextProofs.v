(** Proofs about the message about bytes written twice in a module. *)
From Coq Require Import Lia.
From Verif Require Import BaseProofs ModelNumeric ModelAddress ModelRanges ModelTools ModelLocation ModelRomText ModelParseText ModelFlagText ModelClaimText SpecArith SpecRanges RangesProofs.
Open Scope string_scope.
Open Scope list_scope.
Open Scope Z_scope.

Lemma claim_says : forall owned a size, canonical owned -> addr24 a ->
  (forall er, t_claim owned a size = PErr er -> re_kind er = E_overlap /\ re_text er = ("Second write to same address " ++ address_to_string a ++ " in module")%string) /\
  ((exists er, t_claim owned a size = PErr er) <-> 65536 < size \/ exists x, claimed a size x /\ covers owned x).
Proof.
  intros owned a size C A. destruct (claim_bytes_spec owned a size C A) as (ok & r' & E & _ & _ & OK). unfold t_claim. rewrite E. split.
  - intros er H. destruct ok; [discriminate|]. injection H as <-. split; reflexivity.
  - destruct ok.
    + split; [intros [er X]; discriminate X|]. destruct (proj1 OK eq_refl) as [L N]. intros [X|(x & CL & CV)]; [lia|destruct (N x CL CV)].
    + split; [|intros _; eexists; reflexivity]. intros _. destruct (Z_lt_le_dec 65536 size) as [L|L]; [left; exact L|right].
      assert (D : forall x, {covers owned x} + {~ covers owned x}).
      { intros x. destruct (existsb (fun c => (fst c <=? x) && (x <? snd c)) owned) eqn:X.
        - left. apply existsb_exists in X. destruct X as (c & I & V). exists c. split; [exact I|]. unfold inside. lia.
        - right. intros (c & I & V). unfold inside in V. assert (Y : existsb (fun c => (fst c <=? x) && (x <? snd c)) owned = true); [|congruence]. apply existsb_exists. exists c. split; [exact I|lia]. }
      assert (S : forall n : nat, (exists x, claimed a (Z.of_nat n) x /\ covers owned x) \/ forall x, claimed a (Z.of_nat n) x -> ~ covers owned x).
      { induction n as [|n IH]; [right; intros x (k & K & _); lia|]. destruct IH as [(x & (k & K & ->) & CV)|N].
        - left. exists (same_bank_plus a k). split; [exists k; split; [lia|reflexivity]|exact CV].
        - destruct (D (same_bank_plus a (Z.of_nat n))) as [Y|Y].
          + left. exists (same_bank_plus a (Z.of_nat n)). split; [exists (Z.of_nat n); split; [lia|reflexivity]|exact Y].
          + right. intros x (k & K & ->). destruct (Z.eq_dec k (Z.of_nat n)) as [->|NE]; [exact Y|]. apply N. exists k. split; [lia|reflexivity]. }
      destruct (Z_le_gt_dec 0 size) as [P|P].
      * destruct (S (Z.to_nat size)) as [X|X]; rewrite Z2Nat.id in X by exact P; [exact X|]. discriminate (proj2 OK (conj L X)).
      * assert (false = true); [|discriminate]. apply OK. split; [exact L|]. intros x (k & K & _). lia.
Qed.
