(** Proofs about the debugging output. *)
From Verif Require Import BaseProofs ModelNumeric ModelAddress ModelMnemonic ModelExpr ModelInstr ModelState
  ModelStatement ModelMap ModelRanges ModelModule ModelAssembler ModelDebug MapProofs SpecArith SpecScope SpecLayout SpecAssemble SpecText SpecDebug
  LoadProofs PassProofs LayoutProofs AssembleProofs ProgramProofs ArithProofs PrintProofs.
Open Scope string_scope.
Open Scope list_scope.
Open Scope Z_scope.

(** ** The labels of the source are kept. *)
Definition labs (ls : list line) := map ln_labels ls.
Lemma zset_labs : forall ls k l l', znth ls k = Some l -> ln_labels l' = ln_labels l -> labs (zset k l' ls) = labs ls.
Proof.
  intros ls k l l' H E. apply znth_split in H. destruct H as (a & b & -> & K). rewrite <- K, zset_mid.
  unfold labs. rewrite !map_app. cbn. rewrite E. reflexivity.
Qed.
Lemma step_labs : forall m ls st ls' st', first_pass_step m ls st = Ok (ls', st') -> labs ls' = labs ls.
Proof.
  intros m ls [|[k cur] rest] ls' st' H; unfold first_pass_step in H; [injection H as <- _; reflexivity|].
  destruct (k =? zlen ls); [discriminate|]. destruct (znth ls k) as [l|] eqn:L; [|discriminate].
  destruct (ln_reached l && es_eqb (ln_in l) cur); [injection H as <- _; reflexivity|].
  assert (Z0 : labs (zset k (ln_visit cur l) ls) = labs ls) by (apply (zset_labs _ _ l); auto).
  bok H as next E. destruct (ln_stmt l) as [i|d]; [|injection H as <- _; exact Z0].
  destruct (is_local_branch i); [|injection H as <- _; exact Z0].
  destruct (simple_identifier_opt (i_arg1 i)); [|discriminate].
  destruct (local_index m s (ln_scopes l)) as [idx|e|u|]; [|discriminate H..]. bok H as n2 E2. injection H as <- _. exact Z0.
Qed.
Lemma loop_labs : forall fuel m ls st ls', first_pass_loop fuel m ls st = Ok ls' -> labs ls' = labs ls.
Proof.
  induction fuel as [|f IH]; intros m ls [|p st] ls' H; cbn [first_pass_loop] in H; try (injection H as <-; reflexivity); [discriminate|].
  bok H as q E. destruct q as [ls1 st1]. apply step_labs in E. apply IH in H. congruence.
Qed.
Lemma fix_labs : forall ls ls', fix_modes ls = Ok ls' -> labs ls' = labs ls.
Proof.
  induction ls as [|l ls IH]; intros ls' H; cbn [fix_modes] in H; [injection H as <-; reflexivity|].
  bok H as l1 E. bok H as rest R. injection H as <-. apply IH in R. unfold labs in *. cbn. rewrite R. f_equal.
  destruct (ln_stmt l); [|injection E as <-; reflexivity]. destruct (negb (ln_reached l)); [discriminate|].
  bok E as i' F. injection E as <-. reflexivity.
Qed.
Lemma layout_labs : forall ls pc ls', layout pc ls = Ok ls' -> labs ls' = labs ls.
Proof.
  induction ls as [|l ls IH]; intros pc ls' H; cbn [layout] in H; [injection H as <-; reflexivity|].
  bok H as pc' E. destruct pc' as [a|].
  - bok H as rest R. injection H as <-. apply IH in R. unfold labs in *. cbn. rewrite R. f_equal.
    destruct (stmt_is_dir D_equ (ln_stmt l)); reflexivity.
  - destruct (0 <? stmt_size (ln_stmt l)); [discriminate|]. bok H as rest R. injection H as <-. apply IH in R.
    unfold labs in *. cbn. rewrite R. reflexivity.
Qed.
Lemma first_labs : forall fuel m m', run_first_pass fuel m = Ok m' -> labs (md_lines m') = labs (md_lines m).
Proof.
  intros fuel m m' H. unfold run_first_pass in H. bok H as ls E. bok H as ls2 E2. bok H as ls3 E3. injection H as <-.
  apply loop_labs in E. apply fix_labs in E2. apply layout_labs in E3. cbn [md_lines md_with_lines]. congruence.
Qed.
Lemma grows_labs : forall ls ls', Forall2 line_grows ls ls' -> labs ls' = labs ls.
Proof.
  intros ls ls' F. unfold labs. induction F as [|l l' ls ls' [->|(_ & _ & v & ->)] F IH]; [reflexivity| |]; cbn; rewrite IH; reflexivity.
Qed.
Lemma mk_labs : forall d src i sc, labs (mk_lines d i sc src) = map (fun e => map fst (fst e)) src.
Proof. intros d. unfold labs. induction src as [|[labels s] src IH]; intros; cbn [mk_lines map]; [reflexivity|]. rewrite IH. reflexivity. Qed.
Lemma loaded_both : forall file m, load_asm_file file = Ok m -> exists src, SpecScope.reads file src /\
  map ln_stmt (md_lines m) = map snd src /\ labs (md_lines m) = map (fun e => map fst (fst e)) src.
Proof.
  intros file m H. apply load_exact in H. destruct H as (src & name & R & _ & _ & ->). exists src. split; [exact R|].
  change (md_lines (module_of name src)) with (mk_lines (dlist src) 0 [] src). split; [apply mk_lines_stmts|apply mk_labs].
Qed.
Definition holds_source (file : list string) (m : module) : Prop :=
  exists src, SpecScope.reads file src /\ Forall2 resolved (map snd src) (md_lines m) /\ labs (md_lines m) = map (fun e => map fst (fst e)) src.
Lemma program_sources : forall fuel sk files ws a, assemble fuel sk files = (ws, Ok a) -> Forall2 holds_source files (as_mods a).
Proof.
  intros fuel sk files ws a H. destruct (program_spec _ _ _ _ _ H) as (ms0 & ms1 & order & wss & LD & _ & F1 & FI & _).
  clear H. revert LD ms1 F1 FI. generalize (as_mods a) as ms2. generalize files as fs. clear. intros fs ms2 LD. revert ms2.
  induction LD as [|f m0 fs ms0 L LD IH]; intros ms2 ms1 F1 FI; inversion F1 as [|? m1 ? ms1' R1 F1']; subst;
    inversion FI as [|? m2 ? ms2' FM FI']; subst; constructor; [|eauto].
  destruct (loaded_both _ _ L) as (src & RD & SS & LL). exists src. split; [exact RD|]. split.
  - rewrite <- SS. pose proof (first_pass_resolved _ _ _ R1) as RS. apply finishes_lines in FM.
    clear -RS FM. revert FM. generalize (md_lines m2) as ls'. generalize RS. generalize (map ln_stmt (md_lines m0)) as ss.
    generalize (md_lines m1) as ls. clear. intros ls ss RS. induction RS as [|s l ss ls R F IH]; intros ls' FM;
      inversion FM as [|? l' ? ? G FM']; subst; constructor; [|auto].
    destruct G as [->|(_ & _ & v & ->)]; [exact R|]. unfold resolved in *. destruct s; exact R.
  - rewrite (grows_labs _ _ (finishes_lines _ _ FM)), (first_labs _ _ _ R1). exact LL.
Qed.

(** ** The text. *)
Lemma sapp_assoc3 : forall a b c : string, ((a ++ b) ++ c = a ++ (b ++ c))%string.
Proof. induction a as [|x a IH]; intros b c; [reflexivity|]. cbn. rewrite IH. reflexivity. Qed.
Lemma value_digits : forall v, numeral 16 (hex_fixed 6 (label_to_number T_long v)) 6 (v mod 2 ^ 24).
Proof.
  intros v. unfold label_to_number, cast_to. change 0xffffff with (Z.ones 24). rewrite Z.land_ones by lia.
  apply (hex_numeral 6). change (16 ^ Z.of_nat 6) with (2 ^ 24). apply Z.mod_pos_bound. lia.
Qed.
Lemma debug_entry : forall e l, resolved (snd e) l -> ln_labels l = map fst (fst e) -> entry_block e l (debug_line l).
Proof.
  intros e l R L. split; [exact R|]. unfold debug_line. rewrite L, map_map. destruct (ln_value l) as [v|].
  - exists (hex_fixed 6 (label_to_number T_long v) ++ "     ")%string. split; [exists (hex_fixed 6 (label_to_number T_long v)); split; [apply value_digits|reflexivity]|].
    rewrite sapp_assoc3. reflexivity.
  - exists "           ". split; reflexivity.
Qed.
Lemma debug_file : forall path file m, holds_source file m ->
  file_block path file m (String.append "  === debug info for " path :: module_debug m).
Proof.
  intros path file m (src & R & F & L). exists src, (map debug_line (md_lines m)).
  assert (LEN : List.length src = List.length (md_lines m)).
  { rewrite <- (map_length snd src). clear -F. induction F; cbn; congruence. }
  split; [exact R|]. split; [exact LEN|]. split; [rewrite map_length; congruence|]. split.
  - intros k e l b E K B. rewrite nth_error_map, K in B. cbn in B. injection B as <-. apply debug_entry.
    + clear -F E K. revert k E K. remember (map snd src) as ss eqn:S. revert src S. induction F as [|s l0 ss ls R F IH]; intros src S k E K; [destruct k; discriminate K|].
      destruct src as [|e0 src]; [discriminate S|]. cbn in S. injection S as -> ->. destruct k as [|k]; cbn in E, K.
      * injection E as <-. injection K as <-. exact R.
      * exact (IH _ eq_refl _ E K).
    + apply (f_equal (fun x => nth_error x k)) in L. unfold labs in L. rewrite !nth_error_map, K, E in L. cbn in L. injection L as ->. reflexivity.
  - unfold module_debug. rewrite flat_map_concat_map. reflexivity.
Qed.
Lemma debug_program : forall fuel sk files paths ws a, assemble fuel sk files = (ws, Ok a) -> List.length paths = List.length files ->
  exists parts, debug_print paths a = concat parts /\ List.length parts = List.length files /\
    forall i path file m part, nth_error paths i = Some path -> nth_error files i = Some file -> nth_error (as_mods a) i = Some m ->
      nth_error parts i = Some part -> file_block path file m part.
Proof.
  intros fuel sk files paths ws a H LEN. pose proof (program_sources _ _ _ _ _ H) as F. clear H. unfold debug_print.
  exists (map (fun pm => String.append "  === debug info for " (fst pm) :: module_debug (snd pm)) (combine paths (as_mods a))).
  split; [apply flat_map_concat_map|]. split.
  - rewrite map_length, combine_length, LEN. clear -F. assert (E : List.length files = List.length (as_mods a)) by (induction F; cbn; congruence). rewrite <- E. apply Nat.min_id.
  - revert paths LEN. induction F as [|f m fs ms HS F IH]; intros [|p paths] LEN i path file m' part P FI M PT; try discriminate LEN.
    + destruct i; discriminate P.
    + destruct i as [|i]; cbn in P, FI, M, PT.
      * injection P as ->. injection FI as ->. injection M as ->. injection PT as <-. apply debug_file. exact HS.
      * injection LEN as LEN. exact (IH paths LEN i _ _ _ _ P FI M PT).
Qed.
Lemma in_combine_r' : forall A B (x : list A) (y : list B) b, List.length x = List.length y -> In b y -> exists a, In (a, b) (combine x y).
Proof.
  intros A B. induction x as [|a x IH]; intros [|b0 y] b L I; try discriminate L; [destruct I|]. destruct I as [->|I].
  - exists a. left. reflexivity.
  - injection L as L. destruct (IH _ _ L I) as [a' X]. exists a'. right. exact X.
Qed.
Lemma Forall2_both : forall A B (P : A -> B -> Prop) l l' y, Forall2 P l l' -> In y l' -> exists x, In x l /\ P x y.
Proof.
  intros A B P l l' y F. induction F as [|a b l l' H F IH]; intros I; [destruct I|]. destruct I as [->|I].
  - exists a. split; [left; reflexivity|exact H].
  - destruct (IH I) as (x & X & PX). exists x. split; [right; exact X|exact PX].
Qed.
Lemma debug_writes : forall fuel sk files paths ws a w, assemble fuel sk files = (ws, Ok a) -> List.length paths = List.length files -> In w ws ->
  exists m l d, In m (as_mods a) /\ In l (md_lines m) /\ writes_line a m l w /\ numeral 16 d 6 (fst w) /\
    In (d ++ "     " ++ stmt_to_string (ln_stmt l))%string (debug_print paths a).
Proof.
  intros fuel sk files paths ws a w H LEN I. destruct (program_output _ _ _ _ _ H) as (HF & order & wss & _ & _ & F & ->).
  apply in_concat in I. destruct I as (rs & RS & I). destruct (Forall2_in_r _ _ _ _ _ _ F RS) as (i & m & M & W).
  apply nth_error_In in M. destruct (Forall2_both _ _ _ _ _ _ W I) as (l & L & WL). apply filter_In in L. destruct L as [L _].
  exists m, l, (hex_fixed 6 (label_to_number T_long (fst w))). split; [exact M|]. split; [exact L|]. split; [exact WL|].
  destruct WL as (V & A & _). split.
  - pose proof (value_digits (fst w)) as N. rewrite (Z.mod_small (fst w)) in N by (unfold addr24 in A; lia). exact N.
  - unfold debug_print. apply in_flat_map. assert (EL : List.length paths = List.length (as_mods a)) by (rewrite LEN; clear -HF; induction HF; cbn; congruence).
    destruct (in_combine_r' _ _ _ _ _ EL M) as [p P]. exists (p, m). split; [exact P|]. right. apply in_flat_map. exists l. split; [exact L|].
    apply in_or_app. right. left. rewrite V. reflexivity.
Qed.
