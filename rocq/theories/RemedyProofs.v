(** Proofs that what the messages about status flags ask for is enough. *)
From Coq Require Import Lia.
From Verif Require Import BaseProofs ModelNumeric ModelAddress ModelMnemonic ModelExpr ModelAMode ModelOpcode
  ModelState ModelInstr ModelLocation ModelRomText ModelParseText ModelFlagText
  SpecText SpecParseText SpecFlagText NameProofs BlameProofs FlagTextProofs.
Open Scope string_scope.
Open Scope list_scope.
Open Scope Z_scope.

Definition effective (m : mnemonic) : mnemonic := match m with PM_add | PM_sub => M_adc | m => m end.
Lemma ends_mentions : forall text tail, ends text tail -> within tail text = true.
Proof. intros text tail [a ->]. apply mentions_within. exists a, "". f_equal. clear. induction tail as [|c t IH]; [reflexivity|cbn; rewrite <- IH; reflexivity]. Qed.
Definition tail_of (k : nat) (c : string) : string :=
  match k with
  | 0%nat => "which causes an 8-bit access." | 1%nat => "which causes a 16-bit access."
  | 2%nat => "(so an 8-bit argument is required)" | 3%nat => "(so a 16-bit argument is required)"
  | _ => "`" ++ c ++ "` flag state, which is unknown here" end%string.
Definition one_tail (m : mnemonic) : bool :=
  forallb (fun k => forallb (fun c => forallb (fun j => forallb (fun d => implb (within (tail_of j d) (msg k c m)) (Nat.eqb j k && (negb (Nat.eqb k 4) || String.eqb c d))) flag_letters) five) flag_letters) five.
Lemma one_tail_all : forall m, one_tail m = true.
Proof. apply forall_mnemonics. vm_compute. reflexivity. Qed.
Lemma tail_only : forall k c m j d, (k < 5)%nat -> (j < 5)%nat -> In c flag_letters -> In d flag_letters -> ends (msg k c m) (tail_of j d) -> j = k /\ (k = 4%nat -> c = d).
Proof.
  intros k c m j d LK LJ IC ID E. apply ends_mentions in E.
  assert (F5 : forall n, (n < 5)%nat -> In n five) by (intros n L; unfold five; destruct n as [|[|[|[|[|n]]]]]; cbn [In]; lia || tauto).
  pose proof (one_tail_all m) as O. unfold one_tail in O. rewrite forallb_forall in O. specialize (O k (F5 _ LK)). rewrite forallb_forall in O. specialize (O c IC). rewrite forallb_forall in O. specialize (O j (F5 _ LJ)).
  rewrite forallb_forall in O. specialize (O d ID). rewrite E in O. cbn [implb] in O. apply andb_prop in O. destruct O as [OJ OC]. apply Nat.eqb_eq in OJ. subst j. split; [reflexivity|].
  intros ->. cbn in OC. apply String.eqb_eq in OC. exact OC.
Qed.

(** ** What was the matter. *)
Definition legal_widths (m : mnemonic) : bool :=
  implb (imm_uses_m m || imm_uses_x m) (is_legal_combination (effective m) A_imm_b && is_legal_combination (effective m) A_imm_w).
Lemma legal_widths_all : forall m, legal_widths m = true.
Proof. apply forall_mnemonics. vm_compute. reflexivity. Qed.
Definition suffix_part (i : instr) (f : flags) : pres unit :=
  if suffix_eqb (i_suffix i) S_none then POk tt
  else
    match flag_controlling_size (effective (i_mnem i)) with
    | NotVariable => err_here E_logic ("logic error: parser should not have accepted a suffix on instruction " ++ mnem_to_string (i_mnem i))
    | UsesM => if bit_eqb (fl_m f) B_on && suffix_eqb (i_suffix i) S_w then err_here E_flag_mismatch (msg 0 "m" (i_mnem i))
               else if bit_eqb (fl_m f) B_off && suffix_eqb (i_suffix i) S_b then err_here E_flag_mismatch (msg 1 "m" (i_mnem i)) else POk tt
    | UsesX => if bit_eqb (fl_x f) B_on && suffix_eqb (i_suffix i) S_w then err_here E_flag_mismatch (msg 0 "x" (i_mnem i))
               else if bit_eqb (fl_x f) B_off && suffix_eqb (i_suffix i) S_b then err_here E_flag_mismatch (msg 1 "x" (i_mnem i)) else POk tt
    end.
Definition width_check (m : mnemonic) (needed : bitstate) (c : string) (actual : bitstate) : pres unit :=
  if bit_eqb actual B_unknown || bit_eqb actual B_original then err_here E_unknown_size (msg 4 c m)
  else if bit_eqb actual B_on && bit_eqb needed B_off then err_here E_flag_mismatch (msg 2 c m)
  else if bit_eqb actual B_off && bit_eqb needed B_on then err_here E_flag_mismatch (msg 3 c m) else POk tt.
Definition width_part (um ux : bool) (m : mnemonic) (a : amode) (f : flags) : pres unit :=
  match a with
  | A_imm_fm => if bit_known (fl_m f) then POk tt else err_here E_unknown_size (msg 4 "m" m)
  | A_imm_fx => if bit_known (fl_x f) then POk tt else err_here E_unknown_size (msg 4 "x" m)
  | A_imm_b => if um then width_check m B_on "m" (fl_m f) else if ux then width_check m B_on "x" (fl_x f) else POk tt
  | A_imm_w => if um then width_check m B_off "m" (fl_m f) else if ux then width_check m B_off "x" (fl_x f) else POk tt
  | _ => POk tt
  end.
Lemma check_split : forall i f, t_check_consistency i f =
  if negb (is_legal_combination (effective (i_mnem i)) (i_mode i)) then err_here E_logic ("logic error: instruction " ++ mnem_to_string (i_mnem i) ++ " with addressing mode " ++ amode_to_string (i_mode i) ++ " is inconsistent")%string
  else let^ _ := suffix_part i f in width_part (imm_uses_m (i_mnem i)) (imm_uses_x (i_mnem i)) (i_mnem i) (i_mode i) f.
Proof.
  intros i f. unfold t_check_consistency, suffix_part, effective. cbv zeta.
  match goal with |- context [flag_controlling_size ?x] => generalize x end. intros ef. generalize (imm_uses_m (i_mnem i)) (imm_uses_x (i_mnem i)). intros um ux.
  destruct (negb _); [reflexivity|]. unfold width_part, width_check. destruct (suffix_eqb (i_suffix i) S_none); [destruct (i_mode i); reflexivity|].
  destruct (flag_controlling_size ef); destruct (i_mode i); reflexivity.
Qed.
Lemma suffix_cases : forall i f e, suffix_part i f = PErr e -> re_kind e <> E_logic ->
  exists k c, In c flag_letters /\ re_text e = msg k c (i_mnem i) /\ re_kind e = E_flag_mismatch /\
    ((k = 0%nat /\ suffix_part (with_suffix S_b i) f = POk tt) \/ (k = 1%nat /\ suffix_part (with_suffix S_w i) f = POk tt)).
Proof.
  intros i f e H K. unfold suffix_part in H. destruct (suffix_eqb _ _); [discriminate|]. unfold suffix_part. cbn [with_suffix i_mnem i_suffix suffix_eqb].
  destruct (flag_controlling_size (effective (i_mnem i))); [| |injection H as <-; destruct (K eq_refl)].
  - exists (if bit_eqb (fl_m f) B_on && suffix_eqb (i_suffix i) S_w then 0%nat else 1%nat), "m". split; [left; reflexivity|].
    destruct (bit_eqb (fl_m f) B_on && suffix_eqb (i_suffix i) S_w) eqn:A; [injection H as <-; split; [reflexivity|]; split; [reflexivity|]; left; split; [reflexivity|]; destruct (fl_m f); try discriminate; reflexivity|].
    destruct (bit_eqb (fl_m f) B_off && suffix_eqb (i_suffix i) S_b) eqn:B; [|discriminate]. injection H as <-. split; [reflexivity|]. split; [reflexivity|]. right. split; [reflexivity|]. destruct (fl_m f); try discriminate; reflexivity.
  - exists (if bit_eqb (fl_x f) B_on && suffix_eqb (i_suffix i) S_w then 0%nat else 1%nat), "x". split; [right; left; reflexivity|].
    destruct (bit_eqb (fl_x f) B_on && suffix_eqb (i_suffix i) S_w) eqn:A; [injection H as <-; split; [reflexivity|]; split; [reflexivity|]; left; split; [reflexivity|]; destruct (fl_x f); try discriminate; reflexivity|].
    destruct (bit_eqb (fl_x f) B_off && suffix_eqb (i_suffix i) S_b) eqn:B; [|discriminate]. injection H as <-. split; [reflexivity|]. split; [reflexivity|]. right. split; [reflexivity|]. destruct (fl_x f); try discriminate; reflexivity.
Qed.
Lemma width_checks : forall m needed c b e, width_check m needed c b = PErr e -> needed = B_on \/ needed = B_off ->
  exists k, re_text e = msg k c m /\ ((k = 2%nat /\ width_check m B_on c b = POk tt) \/ (k = 3%nat /\ width_check m B_off c b = POk tt) \/ (k = 4%nat)).
Proof.
  intros m needed c b e H [->| ->]; destruct b; cbn in H; try discriminate; injection H as <-.
  all: first [exists 4%nat; split; [reflexivity|right; right; reflexivity]|exists 3%nat; split; [reflexivity|right; left; split; reflexivity]|exists 2%nat; split; [reflexivity|left; split; reflexivity]].
Qed.
Lemma width_known : forall m needed c b e, width_check m needed c b = PErr e -> bit_known b = true -> re_kind e <> E_unknown_size.
Proof. intros m needed c b e H K. destruct b; try discriminate K; unfold width_check in H; cbn [bit_eqb orb andb] in H; destruct (bit_eqb needed _); try discriminate; injection H as <-; discriminate. Qed.
Lemma width_cases : forall um ux m a f e, width_part um ux m a f = PErr e ->
  exists k c, In c flag_letters /\ re_text e = msg k c m /\ (k < 5)%nat /\
    ((k = 2%nat /\ um || ux = true /\ width_part um ux m A_imm_b f = POk tt) \/ (k = 3%nat /\ um || ux = true /\ width_part um ux m A_imm_w f = POk tt) \/
     (k = 4%nat /\ forall state f' e', In (c, state) width_flags -> bit_known (state f') = true -> width_part um ux m a f' = PErr e' -> re_kind e' <> E_unknown_size)).
Proof.
  assert (FM : forall state, In ("m", state) width_flags -> state = fl_m) by (intros state [X|[X|[]]]; [injection X as <-; reflexivity|discriminate]).
  assert (FX : forall state, In ("x", state) width_flags -> state = fl_x) by (intros state [X|[X|[]]]; [discriminate|injection X as <-; reflexivity]).
  intros um ux m a f e H. destruct a; try discriminate; cbn [width_part] in H.
  - destruct um; [|destruct ux; [|discriminate]]; (destruct (width_checks _ _ _ _ _ H (or_introl eq_refl)) as (k & T & [(-> & W)|[(-> & W)| ->]]));
      [exists 2%nat, "m"|exists 3%nat, "m"|exists 4%nat, "m"|exists 2%nat, "x"|exists 3%nat, "x"|exists 4%nat, "x"]; (split; [cbn; tauto|split; [exact T|split; [lia|]]]); try (left; split; [reflexivity|split; [reflexivity|exact W]]); try (right; left; split; [reflexivity|split; [reflexivity|exact W]]).
    + right. right. split; [reflexivity|]. intros state f' e' I B X. apply FM in I. subst state. exact (width_known _ _ _ _ _ X B).
    + right. right. split; [reflexivity|]. intros state f' e' I B X. apply FX in I. subst state. exact (width_known _ _ _ _ _ X B).
  - destruct um; [|destruct ux; [|discriminate]]; (destruct (width_checks _ _ _ _ _ H (or_intror eq_refl)) as (k & T & [(-> & W)|[(-> & W)| ->]]));
      [exists 2%nat, "m"|exists 3%nat, "m"|exists 4%nat, "m"|exists 2%nat, "x"|exists 3%nat, "x"|exists 4%nat, "x"]; (split; [cbn; tauto|split; [exact T|split; [lia|]]]); try (left; split; [reflexivity|split; [reflexivity|exact W]]); try (right; left; split; [reflexivity|split; [reflexivity|exact W]]).
    + right. right. split; [reflexivity|]. intros state f' e' I B X. apply FM in I. subst state. exact (width_known _ _ _ _ _ X B).
    + right. right. split; [reflexivity|]. intros state f' e' I B X. apply FX in I. subst state. exact (width_known _ _ _ _ _ X B).
  - destruct (bit_known (fl_m f)); [discriminate|]. injection H as <-. exists 4%nat, "m". split; [cbn; tauto|]. split; [reflexivity|]. split; [lia|]. right. right. split; [reflexivity|].
    intros state f' e' I B X. apply FM in I. subst state. cbn [width_part] in X. rewrite B in X. discriminate X.
  - destruct (bit_known (fl_x f)); [discriminate|]. injection H as <-. exists 4%nat, "x". split; [cbn; tauto|]. split; [reflexivity|]. split; [lia|]. right. right. split; [reflexivity|].
    intros state f' e' I B X. apply FX in I. subst state. cbn [width_part] in X. rewrite B in X. discriminate X.
Qed.
Lemma width_none : forall um ux m a f, ~ immediate a -> width_part um ux m a f = POk tt.
Proof. intros um ux m a f N. destruct a; try reflexivity; destruct N; cbn; tauto. Qed.
Lemma ok_intro : forall i f, is_legal_combination (effective (i_mnem i)) (i_mode i) = true -> suffix_part i f = POk tt -> width_part (imm_uses_m (i_mnem i)) (imm_uses_x (i_mnem i)) (i_mnem i) (i_mode i) f = POk tt -> t_check_consistency i f = POk tt.
Proof. intros i f L S W. rewrite check_split, L, S. exact W. Qed.
Lemma suffix_mode : forall a i f, suffix_part (with_mode a i) f = suffix_part i f.
Proof. reflexivity. Qed.
Lemma check_err : forall i f e, t_check_consistency i f = PErr e -> re_kind e <> E_logic ->
  is_legal_combination (effective (i_mnem i)) (i_mode i) = true /\
  (suffix_part i f = PErr e \/ suffix_part i f = POk tt /\ width_part (imm_uses_m (i_mnem i)) (imm_uses_x (i_mnem i)) (i_mnem i) (i_mode i) f = PErr e).
Proof.
  intros i f e H K. rewrite check_split in H. revert H. generalize (imm_uses_m (i_mnem i)) (imm_uses_x (i_mnem i)) (suffix_part i f). intros um ux sp.
  destruct (is_legal_combination (effective (i_mnem i)) (i_mode i)); cbn [negb]; intros H; [|injection H as <-; destruct (K eq_refl)]. split; [reflexivity|].
  destruct sp as [[]|e1|u|]; cbn [pbind] in H; try discriminate; [right; split; [reflexivity|exact H]|left; exact H].
Qed.
Lemma remedied : forall i f e, t_check_consistency i f = PErr e -> re_kind e <> E_logic ->
  (ends (re_text e) "(so an 8-bit argument is required)" -> t_check_consistency (with_mode A_imm_b i) f = POk tt) /\
  (ends (re_text e) "(so a 16-bit argument is required)" -> t_check_consistency (with_mode A_imm_w i) f = POk tt) /\
  (ends (re_text e) "which causes an 8-bit access." -> ~ immediate (i_mode i) -> t_check_consistency (with_suffix S_b i) f = POk tt) /\
  (ends (re_text e) "which causes a 16-bit access." -> ~ immediate (i_mode i) -> t_check_consistency (with_suffix S_w i) f = POk tt) /\
  (forall c state, In (c, state) width_flags -> ends (re_text e) ("`" ++ c ++ "` flag state, which is unknown here") ->
     forall f' e', bit_known (state f') = true -> t_check_consistency i f' = PErr e' -> re_kind e' <> E_unknown_size).
Proof.
  intros i f e H K. destruct (check_err _ _ _ H K) as (LG & C0). clear H.
  assert (FL : forall c st, In (c, st) width_flags -> In c flag_letters) by (intros c0 st0 [X|[X|[]]]; injection X as <- _; cbn; tauto).
  pose proof (legal_widths_all (i_mnem i)) as LW. unfold legal_widths in LW.
  destruct C0 as [SP|(SP & H)].
  2: { destruct (width_cases _ _ _ _ _ _ H) as (k & c & IC & T & LK & C). rewrite T.
    assert (TO : forall j d, (j < 5)%nat -> In d flag_letters -> ends (msg k c (i_mnem i)) (tail_of j d) -> j = k /\ (k = 4%nat -> c = d)) by (intros j d LJ ID E; exact (tail_only _ _ _ _ _ LK LJ IC ID E)).
    assert (M : In "m" flag_letters) by (left; reflexivity).
    split; [|split; [|split; [|split]]].
    + intros E. destruct (TO 2%nat "m" ltac:(lia) M E) as [<- _]. destruct C as [(_ & U & W)|[(X & _)|(X & _)]]; try discriminate X. rewrite U in LW. cbn [implb] in LW. apply andb_prop in LW. destruct LW as [L1 _]. exact (ok_intro (with_mode A_imm_b i) f L1 SP W).
    + intros E. destruct (TO 3%nat "m" ltac:(lia) M E) as [<- _]. destruct C as [(X & _)|[(_ & U & W)|(X & _)]]; try discriminate X. rewrite U in LW. cbn [implb] in LW. apply andb_prop in LW. destruct LW as [_ L1]. exact (ok_intro (with_mode A_imm_w i) f L1 SP W).
    + intros E. destruct (TO 0%nat "m" ltac:(lia) M E) as [<- _]. destruct C as [(X & _)|[(X & _)|(X & _)]]; discriminate X.
    + intros E. destruct (TO 1%nat "m" ltac:(lia) M E) as [<- _]. destruct C as [(X & _)|[(X & _)|(X & _)]]; discriminate X.
    + intros d state IF E f' e' B X. destruct (TO 4%nat d ltac:(lia) (FL _ _ IF) E) as [<- CD]. specialize (CD eq_refl). subst d. destruct C as [(Y & _)|[(Y & _)|(_ & Y)]]; try discriminate Y.
      intros EK. assert (NL : re_kind e' <> E_logic) by (rewrite EK; discriminate). destruct (check_err _ _ _ X NL) as (_ & [SP'|(_ & W)]); [|exact (Y state f' e' IF B W EK)].
      destruct (suffix_cases _ _ _ SP' NL) as (_ & _ & _ & _ & KE & _). congruence. }
  - destruct (suffix_cases _ _ _ SP K) as (k & c & IC & T & _ & C). rewrite T.
    assert (LK : (k < 5)%nat) by (destruct C as [[-> _]|[-> _]]; lia).
    assert (TO : forall j d, (j < 5)%nat -> In d flag_letters -> ends (msg k c (i_mnem i)) (tail_of j d) -> j = k /\ (k = 4%nat -> c = d)) by (intros j d LJ ID E; exact (tail_only _ _ _ _ _ LK LJ IC ID E)).
    assert (M : In "m" flag_letters) by (left; reflexivity).
    split; [|split; [|split; [|split]]].
    + intros E. destruct (TO 2%nat "m" ltac:(lia) M E) as [<- _]. destruct C as [(X & _)|(X & _)]; discriminate X.
    + intros E. destruct (TO 3%nat "m" ltac:(lia) M E) as [<- _]. destruct C as [(X & _)|(X & _)]; discriminate X.
    + intros E NI. destruct (TO 0%nat "m" ltac:(lia) M E) as [<- _]. destruct C as [(_ & W)|(X & _)]; [|discriminate X]. exact (ok_intro (with_suffix S_b i) f LG W (width_none _ _ _ _ _ NI)).
    + intros E NI. destruct (TO 1%nat "m" ltac:(lia) M E) as [<- _]. destruct C as [(X & _)|(_ & W)]; [discriminate X|]. exact (ok_intro (with_suffix S_w i) f LG W (width_none _ _ _ _ _ NI)).
    + intros d state IF E f' e' B X. destruct (TO 4%nat d ltac:(lia) (FL _ _ IF) E) as [<- _]. destruct C as [(Y & _)|(Y & _)]; discriminate Y.
Qed.
