(** Proofs about names of mnemonics, suffixes, directives and flag states. *)
From Verif Require Import BaseProofs ModelMnemonic ModelState SpecNames SpecFlags.
Open Scope string_scope.
Open Scope Z_scope.

Lemma code_inj : forall c d, code c = code d -> c = d.
Proof.
  intros c d H. unfold code in H. apply N2Z.inj in H.
  rewrite <- (ascii_N_embedding c), <- (ascii_N_embedding d), H. reflexivity.
Qed.
Lemma code_range : forall c, 0 <= code c < 256.
Proof. intros c. destruct c as [[][][][][][][][]]; vm_compute; split; congruence. Qed.
Lemma code_lower : forall c,
  code (ascii_lower c) = if in_range "A" "Z" c then code c + 32 else code c.
Proof. intros c. destruct c as [[][][][][][][][]]; vm_compute; reflexivity. Qed.
Lemma code_upper : forall c,
  code (ascii_upper c) = if in_range "a" "z" c then code c - 32 else code c.
Proof. intros c. destruct c as [[][][][][][][][]]; vm_compute; reflexivity. Qed.
Lemma in_range_A : forall c, in_range "A" "Z" c = ((65 <=? code c) && (code c <=? 90))%bool.
Proof. reflexivity. Qed.
Lemma in_range_a : forall c, in_range "a" "z" c = ((97 <=? code c) && (code c <=? 122))%bool.
Proof. reflexivity. Qed.

Lemma same_letter_lower : forall c d, same_letter c d <-> ascii_lower c = ascii_lower d.
Proof.
  intros c d. split.
  - intros H. apply code_inj. rewrite !code_lower, !in_range_A. unfold same_letter in H.
    pose proof (code_range c). pose proof (code_range d).
    destruct (65 <=? code c) eqn:?, (code c <=? 90) eqn:?, (65 <=? code d) eqn:?,
      (code d <=? 90) eqn:?; cbn [andb]; lia.
  - intros H. apply (f_equal code) in H. rewrite !code_lower, !in_range_A in H.
    unfold same_letter. pose proof (code_range c). pose proof (code_range d).
    destruct (65 <=? code c) eqn:?, (code c <=? 90) eqn:?, (65 <=? code d) eqn:?,
      (code d <=? 90) eqn:?; cbn [andb] in H; lia.
Qed.
Lemma same_letter_upper : forall c d, same_letter c d <-> ascii_upper c = ascii_upper d.
Proof.
  intros c d. split.
  - intros H. apply code_inj. rewrite !code_upper, !in_range_a. unfold same_letter in H.
    pose proof (code_range c). pose proof (code_range d).
    destruct (97 <=? code c) eqn:?, (code c <=? 122) eqn:?, (97 <=? code d) eqn:?,
      (code d <=? 122) eqn:?; cbn [andb]; lia.
  - intros H. apply (f_equal code) in H. rewrite !code_upper, !in_range_a in H.
    unfold same_letter. pose proof (code_range c). pose proof (code_range d).
    destruct (97 <=? code c) eqn:?, (code c <=? 122) eqn:?, (97 <=? code d) eqn:?,
      (code d <=? 122) eqn:?; cbn [andb] in H; lia.
Qed.

Lemma same_name_lower : forall s t, same_name s t <-> str_lower s = str_lower t.
Proof.
  split.
  - induction 1; cbn; [reflexivity|]. apply same_letter_lower in H. congruence.
  - revert t. induction s as [|c s IH]; intros [|d t] H; cbn in H; try discriminate;
      constructor; injection H as H1 H2; [apply same_letter_lower; assumption|auto].
Qed.
Lemma same_name_upper : forall s t, same_name s t <-> str_upper s = str_upper t.
Proof.
  split.
  - induction 1; cbn; [reflexivity|]. apply same_letter_upper in H. congruence.
  - revert t. induction s as [|c s IH]; intros [|d t] H; cbn in H; try discriminate;
      constructor; injection H as H1 H2; [apply same_letter_upper; assumption|auto].
Qed.

Lemma assoc_string_in : forall A s (l : list (string * A)) v,
  assoc_string s l = Some v -> In (s, v) l.
Proof.
  intros A s l v. induction l as [|[k w] l IH]; cbn; [discriminate|].
  destruct (String.eqb_spec s k) as [->|N]; intros H; [left; congruence|right; auto].
Qed.
Lemma assoc_string_nodup : forall A s (l : list (string * A)) v,
  NoDup (map fst l) -> In (s, v) l -> assoc_string s l = Some v.
Proof.
  intros A s l v. induction l as [|[k w] l IH]; cbn; [contradiction|]. intros N [H|H].
  - injection H as -> ->. rewrite String.eqb_refl. reflexivity.
  - inv N. destruct (String.eqb_spec s k) as [->|D]; [|auto].
    exfalso. apply H2. apply in_map_iff. exists (k, v). auto.
Qed.
Lemma assoc_string_none : forall A s (l : list (string * A)),
  assoc_string s l = None <-> ~ In s (map fst l).
Proof.
  intros A s l. induction l as [|[k w] l IH]; cbn; [tauto|].
  destruct (String.eqb_spec s k) as [->|N]; [split; [discriminate|tauto]|].
  rewrite IH. split; [intros H [E|E]; [congruence|auto]|tauto].
Qed.

Fixpoint nodupb (l : list string) : bool :=
  match l with [] => true | x :: l' => negb (existsb (String.eqb x) l') && nodupb l' end.
Lemma nodupb_ok : forall l, nodupb l = true -> NoDup l.
Proof.
  induction l as [|x l IH]; cbn; [constructor|]. intros H. apply andb_prop in H as [H1 H2].
  constructor; [|auto]. intros H. rewrite negb_true_iff in H1.
  assert (existsb (String.eqb x) l = true)
    by (apply existsb_exists; exists x; split; [assumption|apply String.eqb_refl]).
  congruence.
Qed.

Lemma mnem_eqb_eq : forall a b, mnem_eqb a b = true <-> a = b.
Proof.
  intros a b. split; [|intros ->; apply Z.eqb_refl].
  unfold mnem_eqb. rewrite Z.eqb_eq. intros H.
  assert (E : forall m, nth (Z.to_nat (mnem_index m)) all_mnemonics M_adc = m)
    by (intros []; reflexivity).
  rewrite <- (E a), <- (E b), H. reflexivity.
Qed.
Lemma all_mnemonics_complete : forall m, In m all_mnemonics.
Proof.
  intros m.
  assert (E : existsb (mnem_eqb m) all_mnemonics = true) by (destruct m; vm_compute; reflexivity).
  apply existsb_exists in E. destruct E as (x & Hx & E). apply mnem_eqb_eq in E. congruence.
Qed.
Lemma forall_mnemonics : forall p : mnemonic -> bool,
  forallb p all_mnemonics = true -> forall m, p m = true.
Proof.
  intros p H m. rewrite forallb_forall in H. apply H, all_mnemonics_complete.
Qed.

Lemma to_mnemonic_iff : forall s m, to_mnemonic s = Some m <-> same_name s (mnem_to_string m).
Proof.
  intros s m. rewrite same_name_lower.
  assert (L : str_lower (mnem_to_string m) = mnem_to_string m) by (destruct m; reflexivity).
  rewrite L. unfold to_mnemonic. generalize (str_lower s). clear s L. intros s.
  assert (N : NoDup (map fst mnemonic_table)) by (apply nodupb_ok; vm_compute; reflexivity).
  split.
  - intros H. apply assoc_string_in in H.
    assert (A : forallb (fun kv => String.eqb (fst kv) (mnem_to_string (snd kv))) mnemonic_table = true)
      by (vm_compute; reflexivity).
    rewrite forallb_forall in A. apply A in H. apply String.eqb_eq in H. exact H.
  - intros ->. destruct m; vm_compute; reflexivity.
Qed.

Lemma to_suffix_iff : forall s x,
  to_suffix s = Some x <-> x <> S_none /\ same_name s (suffix_to_string x).
Proof.
  intros s x. rewrite same_name_lower.
  assert (L : str_lower (suffix_to_string x) = suffix_to_string x) by (destruct x; reflexivity).
  rewrite L. unfold to_suffix. generalize (str_lower s). clear s L. intros s. cbn.
  destruct (String.eqb_spec s ".b") as [->|N1].
  - split; [intros H; injection H as <-; split; [discriminate|reflexivity]|].
    intros [H1 H2]. destruct x; [contradiction|reflexivity|discriminate].
  - destruct (String.eqb_spec s ".w") as [->|N2].
    + split; [intros H; injection H as <-; split; [discriminate|reflexivity]|].
      intros [H1 H2]. destruct x; [contradiction|discriminate|reflexivity].
    + split; [discriminate|]. intros [H1 H2]. destruct x; [contradiction|contradiction|contradiction].
Qed.

(** The directive names a user writes. *)
Lemma to_directive_iff : forall s d,
  to_directive_name s = Some d <->
  same_name s (match d with D_remote => ".remote" | d => dir_to_string d end).
Proof.
  intros s d. rewrite same_name_upper. unfold to_directive_name.
  generalize (str_upper s). clear s. intros s.
  assert (N : NoDup (map fst directive_table)) by (apply nodupb_ok; vm_compute; reflexivity).
  split.
  - intros H. apply assoc_string_in in H.
    assert (A : forallb (fun kv => String.eqb (fst kv)
              (str_upper (match snd kv with D_remote => ".remote" | d => dir_to_string d end)))
              directive_table = true) by (vm_compute; reflexivity).
    rewrite forallb_forall in A. apply A in H. apply String.eqb_eq in H. cbn [fst snd] in H.
    rewrite H. destruct d; reflexivity.
  - intros ->. destruct d; vm_compute; reflexivity.
Qed.

Lemma same_name_refl : forall s, same_name s s.
Proof. intros s. apply same_name_lower. reflexivity. Qed.

(** ** Flag names *)
Lemma consume_name_part_some : forall s b r, consume_name_part s = Some (b, r) ->
  (b = B_on /\ s = String "8" r) \/ (b = B_off /\ s = String "1" (String "6" r)).
Proof.
  intros s b r H. destruct s as [|c s]; [discriminate|].
  destruct c as [[][][][][][][][]]; try discriminate H.
  - destruct s as [|c s]; [discriminate|].
    destruct c as [[][][][][][][][]]; try discriminate H. cbn in H. injection H as <- <-. auto.
  - cbn in H. injection H as <- <-. auto.
Qed.
Lemma optional_part_some : forall ch s b r, optional_part ch s = Some (b, r) ->
  (b = B_on /\ s = String ch (String "8" r)) \/
  (b = B_off /\ s = String ch (String "1" (String "6" r))) \/
  (b = B_unknown /\ s = r).
Proof.
  intros ch s b r H. unfold optional_part, consume_byte in H. destruct s as [|c s].
  - injection H as <- <-. auto.
  - destruct (Ascii.eqb_spec c ch) as [->|N].
    + apply consume_name_part_some in H. destruct H as [[-> ->]|[-> ->]]; auto.
    + injection H as <- <-. auto.
Qed.

Lemma flags_from_name_iff : forall s f,
  flags_from_name s = Some f <-> exists n, In (n, f) documented_flags /\ same_name s n.
Proof.
  intros s f. split.
  - unfold flags_from_name. intros H.
    assert (G : In (str_lower s, f) documented_flags).
    { cbv zeta in H. revert H. generalize (str_lower s). clear s. intros l H.
      destruct (String.eqb_spec l "unk") as [E0|_]; [subst l; injection H as <-; cbn; tauto|].
      destruct (String.eqb_spec l "emu") as [E0|_]; [subst l; injection H as <-; cbn; tauto|].
      destruct (String.eqb_spec l "native") as [E0|_]; [subst l; injection H as <-; cbn; tauto|].
      destruct (String.eqb_spec l "") as [E0|NE]; [subst l; discriminate|].
      destruct (optional_part "m" l) as [[bm r1]|] eqn:E1; [|discriminate].
      destruct (optional_part "x" r1) as [[bx r2]|] eqn:E2; [|discriminate].
      destruct (String.eqb_spec r2 "") as [->|_]; [|discriminate]. cbn [negb] in H.
      injection H as <-.
      apply optional_part_some in E1. apply optional_part_some in E2.
      destruct E1 as [[-> ->]|[[-> ->]|[-> ->]]], E2 as [[-> ->]|[[-> ->]|[-> ->]]];
        try contradiction; cbn; tauto. }
    exists (str_lower s). split; [assumption|]. apply same_name_lower.
    assert (A : forallb (fun nf => String.eqb (str_lower (fst nf)) (fst nf)) documented_flags = true)
      by (vm_compute; reflexivity).
    rewrite forallb_forall in A. apply A in G. apply String.eqb_eq in G. symmetry. exact G.
  - intros (n & Hn & H). apply same_name_lower in H. unfold flags_from_name. rewrite H.
    cbn in Hn. repeat destruct Hn as [Hn|Hn]; try contradiction; injection Hn as <- <-;
      vm_compute; reflexivity.
Qed.

Lemma flags_name_round_trip : forall s f, flags_from_name s = Some f ->
  flags_from_name (flags_to_name f) = Some f.
Proof.
  intros s f H. apply flags_from_name_iff in H. destruct H as (n & Hn & _).
  cbn in Hn. repeat destruct Hn as [Hn|Hn]; try contradiction; injection Hn as <- <-;
    vm_compute; reflexivity.
Qed.
Lemma flags_to_name_documented : forall f, exists g,
  In (flags_to_name f, g) documented_flags.
Proof.
  intros [e m x c]. destruct e, m, x; eexists; cbn; tauto.
Qed.
Lemma same_name_trans : forall a b c, same_name a b -> same_name b c -> same_name a c.
Proof. intros a b c. rewrite !same_name_lower. congruence. Qed.
Lemma flags_name_round_trip_ci : forall s t f, flags_from_name s = Some f ->
  same_name t (flags_to_name f) -> flags_from_name t = Some f.
Proof.
  intros s t f H Ht. apply flags_name_round_trip in H. apply flags_from_name_iff in H.
  destruct H as (n & Hn & Hs). apply flags_from_name_iff. exists n. split; [assumption|].
  eapply same_name_trans; eassumption.
Qed.

Lemma remote_not_printed : exists d,
  to_directive_name (dir_to_string d) <> Some d /\ dir_to_string d = "".
Proof. exists D_remote. split; [vm_compute; discriminate|reflexivity]. Qed.
