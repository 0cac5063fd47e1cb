(** Proofs about the messages about status flags. *)
From Coq Require Import Lia.
From Verif Require Import BaseProofs ModelNumeric ModelAddress ModelMnemonic ModelExpr ModelAMode ModelOpcode
  ModelState ModelInstr ModelToken ModelStatement ModelParse ModelMap ModelModule ModelAssembler ModelRom ModelTools ModelLocation ModelRomText ModelParseText ModelFlagText
  SpecScope SpecInstr SpecLayout SpecAssemble SpecSink SpecLocation SpecText SpecParseText SpecFlagText NameProofs LocationProofs LocatedProofs BlameProofs MismatchProofs.
Open Scope string_scope.
Open Scope list_scope.
Open Scope Z_scope.

Lemma bare_check : forall i f, SpecParseText.bare (t_check_consistency i f) = check_consistency i f.
Proof.
  intros i f. unfold t_check_consistency, check_consistency. cbv zeta. destruct (negb _); [reflexivity|].
  apply ParseTextProofs.bare_bind.
  - destruct (suffix_eqb _ _); [reflexivity|]. destruct (flag_controlling_size _); try reflexivity; (destruct (_ && _); [reflexivity|]; destruct (_ && _); reflexivity).
  - intros _. destruct (i_mode i); try reflexivity; repeat match goal with |- context [if ?x then _ else _] => destruct x end; reflexivity.
Qed.
Lemma bare_fix : forall i f, SpecParseText.bare (t_fix_addressing_mode i f) = fix_addressing_mode i f.
Proof. intros i f. unfold t_fix_addressing_mode, fix_addressing_mode. destruct (i_mode i); try reflexivity; [destruct (fl_m f)|destruct (fl_x f)]; reflexivity. Qed.

(** ** The messages. *)
Definition msg (k : nat) (c : string) (m : mnemonic) : string :=
  (match k with
   | 0%nat => "Instruction " ++ mnem_to_string m ++ ".w uses the `w` suffix, but the `" ++ c ++ "` flag is set here, which causes an 8-bit access."
   | 1%nat => "Instruction " ++ mnem_to_string m ++ ".b uses the `b` suffix, but the `" ++ c ++ "` flag is unset here, which causes a 16-bit access."
   | 2%nat => "instruction " ++ mnem_to_string m ++ " has 16-bit immediate argument, but `" ++ c ++ "` status flag is on here (so an 8-bit argument is required)"
   | 3%nat => "instruction " ++ mnem_to_string m ++ " has 8-bit immediate argument, but `" ++ c ++ "` status flag is off here (so a 16-bit argument is required)"
   | _ => unknown_flag m c
   end)%string.
Definition kind_of_msg (k : nat) : err := match k with 4%nat => E_unknown_size | _ => E_flag_mismatch end.
Definition msg_case (i : instr) (f : flags) (k : nat) (c : string) (st : flags -> bitstate) : Prop :=
  In (c, st) width_flags /\ In (st f) (snd (nth k (phrases c) ("", []))) /\ (k < 5)%nat.
Lemma shape_check : forall i f e, t_check_consistency i f = PErr e -> re_kind e <> E_logic ->
  exists k c st, msg_case i f k c st /\ e = RError (kind_of_msg k) (msg k c (i_mnem i)) no_location.
Proof.
  intros i f e H K. unfold t_check_consistency in H. cbv zeta in H. destruct (negb _); [injection H as <-; destruct (K eq_refl)|].
  assert (BK : forall b, bit_known b = false -> In b [B_unknown; B_original]) by (intros [] B; try discriminate; cbn; tauto).
  assert (BO : forall b, bit_eqb b B_unknown || bit_eqb b B_original = true -> In b [B_unknown; B_original]) by (intros [] B; try discriminate; cbn; tauto).
  assert (ON : forall b x, bit_eqb b B_on && x = true -> In b [B_on]) by (intros [] x B; try discriminate; cbn; tauto).
  assert (OFF : forall b x, bit_eqb b B_off && x = true -> In b [B_off]) by (intros [] x B; try discriminate; cbn; tauto).
  destruct (if suffix_eqb (i_suffix i) S_none then _ else _) as [u|e1|u|] eqn:S; cbn [pbind] in H.
  - clear S. set (um := imm_uses_m (i_mnem i)) in H. set (ux := imm_uses_x (i_mnem i)) in H. clearbody um ux. destruct (i_mode i); try discriminate.
    all: cbv beta in H; repeat match type of H with (if ?x then _ else _) = _ => destruct x eqn:?; try discriminate H end.
    all: injection H as <-.
    all: first [exists 4%nat, "m", fl_m; split; [split; [left; reflexivity|split; [first [apply BK; assumption|apply BO; assumption]|repeat constructor]]|reflexivity]
               |exists 4%nat, "x", fl_x; split; [split; [right; left; reflexivity|split; [first [apply BK; assumption|apply BO; assumption]|repeat constructor]]|reflexivity]
               |exists 2%nat, "m", fl_m; split; [split; [left; reflexivity|split; [eapply ON; eassumption|repeat constructor]]|reflexivity]
               |exists 2%nat, "x", fl_x; split; [split; [right; left; reflexivity|split; [eapply ON; eassumption|repeat constructor]]|reflexivity]
               |exists 3%nat, "m", fl_m; split; [split; [left; reflexivity|split; [eapply OFF; eassumption|repeat constructor]]|reflexivity]
               |exists 3%nat, "x", fl_x; split; [split; [right; left; reflexivity|split; [eapply OFF; eassumption|repeat constructor]]|reflexivity]].
  - injection H as <-. destruct (suffix_eqb _ _); [discriminate|]. destruct (flag_controlling_size _).
    + destruct (bit_eqb (fl_m f) B_on && _) eqn:A; [injection S as <-; exists 0%nat, "m", fl_m; split; [split; [left; reflexivity|split; [eapply ON; eassumption|repeat constructor]]|reflexivity]|].
      destruct (bit_eqb (fl_m f) B_off && _) eqn:B; [injection S as <-; exists 1%nat, "m", fl_m; split; [split; [left; reflexivity|split; [eapply OFF; eassumption|repeat constructor]]|reflexivity]|discriminate].
    + destruct (bit_eqb (fl_x f) B_on && _) eqn:A; [injection S as <-; exists 0%nat, "x", fl_x; split; [split; [right; left; reflexivity|split; [eapply ON; eassumption|repeat constructor]]|reflexivity]|].
      destruct (bit_eqb (fl_x f) B_off && _) eqn:B; [injection S as <-; exists 1%nat, "x", fl_x; split; [split; [right; left; reflexivity|split; [eapply OFF; eassumption|repeat constructor]]|reflexivity]|discriminate].
    + injection S as <-. destruct (K eq_refl).
  - discriminate.
  - discriminate.
Qed.
Lemma shape_fix : forall i f e, t_fix_addressing_mode i f = PErr e -> exists k c st, msg_case i f k c st /\ e = RError (kind_of_msg k) (msg k c (i_mnem i)) no_location.
Proof.
  intros i f e H. unfold t_fix_addressing_mode in H. cbv zeta in H. destruct (i_mode i); try discriminate.
  - destruct (fl_m f) eqn:F; try discriminate; injection H as <-; exists 4%nat, "m", fl_m; (split; [split; [left; reflexivity|split; [rewrite F; cbn; tauto|repeat constructor]]|reflexivity]).
  - destruct (fl_x f) eqn:F; try discriminate; injection H as <-; exists 4%nat, "x", fl_x; (split; [split; [right; left; reflexivity|split; [rewrite F; cbn; tauto|repeat constructor]]|reflexivity]).
Qed.
(** Which phrases a message has. *)
Definition five : list nat := [0; 1; 2; 3; 4]%nat.
Definition flag_letters : list string := ["m"; "x"].
Definition phrase_at (j : nat) (d : string) : string := fst (nth j (phrases d) ("", [])).
Definition one_phrase (m : mnemonic) : bool :=
  forallb (fun k => forallb (fun c => forallb (fun j => forallb (fun d => Bool.eqb (within (phrase_at j d) (msg k c m)) (Nat.eqb j k && String.eqb c d)) flag_letters) five) flag_letters) five.
Lemma one_phrase_all : forall m, one_phrase m = true.
Proof. apply forall_mnemonics. vm_compute. reflexivity. Qed.
Lemma has_phrase : forall k c m, (k < 5)%nat -> mentions (msg k c m) (phrase_at k c).
Proof.
  intros k c m L. unfold mentions, phrase_at. assert (AP : forall a b d : string, ((a ++ b) ++ d)%string = (a ++ (b ++ d))%string) by (intros x b d; induction x as [|ch x IH]; [reflexivity|cbn; rewrite IH; reflexivity]).
  destruct k as [|[|[|[|[|k]]]]]; [..|lia]; cbn [nth phrases fst msg].
  - exists ("Instruction " ++ mnem_to_string m ++ ".w uses the `w` suffix, but ")%string, "."%string. rewrite !AP. cbn [append]. rewrite ?AP. reflexivity.
  - exists ("Instruction " ++ mnem_to_string m ++ ".b uses the `b` suffix, but ")%string, "."%string. rewrite !AP. cbn [append]. rewrite ?AP. reflexivity.
  - exists ("instruction " ++ mnem_to_string m ++ " has 16-bit immediate argument, but ")%string, " (so an 8-bit argument is required)"%string. rewrite !AP. cbn [append]. rewrite ?AP. reflexivity.
  - exists ("instruction " ++ mnem_to_string m ++ " has 8-bit immediate argument, but ")%string, " (so a 16-bit argument is required)"%string. rewrite !AP. cbn [append]. rewrite ?AP. reflexivity.
  - exists ("instruction " ++ mnem_to_string m ++ " with immediate argument ")%string, ""%string. unfold unknown_flag. rewrite !AP. cbn [append]. rewrite ?AP. reflexivity.
Qed.
Lemma msg_names : forall k c m, mentions (msg k c m) (mnem_to_string m).
Proof. intros k c m. destruct k as [|[|[|[|k]]]]; cbn [msg]; unfold unknown_flag; [exists "Instruction "|exists "Instruction "|exists "instruction "|exists "instruction "|exists "instruction "]; eexists; reflexivity. Qed.
Lemma phrase_only : forall k c m c' phrase sts, (k < 5)%nat -> In c flag_letters -> In c' flag_letters -> In (phrase, sts) (phrases c') -> mentions (msg k c m) phrase -> c' = c /\ sts = snd (nth k (phrases c) ("", [])).
Proof.
  intros k c m c' phrase sts LK IC IC' IP M. apply mentions_within in M. destruct (In_nth _ _ ("", []) IP) as (j & LJ & N).
  assert (PJ : phrase = phrase_at j c') by (unfold phrase_at; rewrite N; reflexivity). subst phrase.
  assert (J5 : In j five) by (change (List.length (phrases c')) with 5%nat in LJ; unfold five; destruct j as [|[|[|[|[|j]]]]]; cbn [In]; lia || tauto).
  assert (K5 : In k five) by (unfold five; destruct k as [|[|[|[|[|k]]]]]; cbn [In]; lia || tauto).
  pose proof (one_phrase_all m) as O. unfold one_phrase in O. rewrite forallb_forall in O. specialize (O k K5). rewrite forallb_forall in O. specialize (O c IC). rewrite forallb_forall in O. specialize (O j J5).
  rewrite forallb_forall in O. specialize (O c' IC'). rewrite M in O. apply Bool.eqb_prop in O. symmetry in O. apply andb_prop in O. destruct O as [OJ OC]. apply Nat.eqb_eq in OJ. apply String.eqb_eq in OC. subst j c'.
  split; [reflexivity|]. rewrite N. reflexivity.
Qed.
Lemma said_truly : forall i f e, t_check_consistency i f = PErr e \/ t_fix_addressing_mode i f = PErr e -> re_kind e <> E_logic ->
  mentions (re_text e) (mnem_to_string (i_mnem i)) /\ true_of (re_text e) f.
Proof.
  intros i f e H K. assert (X : exists k c st, msg_case i f k c st /\ e = RError (kind_of_msg k) (msg k c (i_mnem i)) no_location) by (destruct H as [H|H]; [exact (shape_check _ _ _ H K)|exact (shape_fix _ _ _ H)]).
  destruct X as (k & c & st & (IC & IS & LK) & ->). cbn [re_text].
  assert (FL : forall c st, In (c, st) width_flags -> In c flag_letters) by (intros c0 st0 [X|[X|[]]]; injection X as <- _; cbn; tauto).
  assert (FS : forall c st st', In (c, st) width_flags -> In (c, st') width_flags -> st = st').
  { intros c0 s1 s2 [X|[X|[]]] [Y|[Y|[]]]; injection X as <- <-; injection Y; congruence || discriminate. }
  split; [apply msg_names|]. split.
  - intros c' st' phrase sts IC' IP M. destruct (phrase_only _ _ _ _ _ _ LK (FL _ _ IC) (FL _ _ IC') IP M) as [-> ->]. rewrite (FS _ _ _ IC' IC). exact IS.
  - exists c, st, (phrase_at k c), (snd (nth k (phrases c) ("", []))). split; [exact IC|]. split; [|apply has_phrase, LK].
    unfold phrase_at. destruct (nth k (phrases c) ("", [])) as [a b] eqn:N. cbn [fst snd]. rewrite <- N. apply nth_In. exact LK.
Qed.
