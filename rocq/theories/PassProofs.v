(** Proofs about the passes over a module. *)
From Verif Require Import BaseProofs ModelNumeric ModelAddress ModelMnemonic ModelExpr ModelInstr ModelState
  ModelStatement ModelMap ModelRanges ModelModule MapProofs SpecScope.
Open Scope list_scope.

(** ** Names and scopes are not touched. *)
Definition line_scopes (l : line) := (ln_scopes l, ln_locals l).
Definition all_scopes (ls : list line) := map line_scopes ls.

Lemma zset_scopes : forall ls k l l', znth ls k = Some l -> line_scopes l' = line_scopes l ->
  all_scopes (zset k l' ls) = all_scopes ls.
Proof.
  intros ls k l l' H E. apply znth_split in H. destruct H as (a & b & -> & K). rewrite <- K, zset_mid.
  unfold all_scopes. rewrite !map_app. cbn. rewrite E. reflexivity.
Qed.
Lemma first_pass_step_scopes : forall m ls st ls' st', first_pass_step m ls st = Ok (ls', st') ->
  all_scopes ls' = all_scopes ls.
Proof.
  intros m ls [|[k cur] rest] ls' st' H; unfold first_pass_step in H; [injection H as <- _; reflexivity|].
  destruct (k =? zlen ls); [discriminate|]. destruct (znth ls k) as [l|] eqn:L; [|discriminate].
  destruct (ln_reached l && es_eqb (ln_in l) cur); [injection H as <- _; reflexivity|].
  assert (Z0 : all_scopes (zset k (ln_visit cur l) ls) = all_scopes ls) by (apply (zset_scopes _ _ l); auto).
  bok H as next E. destruct (ln_stmt l) as [i|d]; [|injection H as <- _; exact Z0].
  destruct (is_local_branch i); [|injection H as <- _; exact Z0].
  destruct (simple_identifier_opt (i_arg1 i)); [|discriminate].
  destruct (local_index m s (ln_scopes l)) as [idx|e|u|]; [|discriminate H..]. bok H as n2 E2. injection H as <- _. exact Z0.
Qed.
Lemma first_pass_loop_scopes : forall fuel m ls st ls', first_pass_loop fuel m ls st = Ok ls' ->
  all_scopes ls' = all_scopes ls.
Proof.
  induction fuel as [|f IH]; intros m ls [|p st] ls' H; cbn [first_pass_loop] in H; try (injection H as <-; reflexivity); [discriminate|].
  bok H as q E. destruct q as [ls1 st1]. apply first_pass_step_scopes in E. apply IH in H. congruence.
Qed.
Lemma fix_modes_scopes : forall ls ls', fix_modes ls = Ok ls' -> all_scopes ls' = all_scopes ls.
Proof.
  induction ls as [|l ls IH]; intros ls' H; cbn [fix_modes] in H; [injection H as <-; reflexivity|].
  bok H as l1 E. bok H as rest R. injection H as <-. apply IH in R. unfold all_scopes in *. cbn. rewrite R. f_equal.
  destruct (ln_stmt l); [|injection E as <-; reflexivity]. destruct (negb (ln_reached l)); [discriminate|].
  bok E as i' F. injection E as <-. reflexivity.
Qed.
Lemma layout_scopes : forall ls pc ls', layout pc ls = Ok ls' -> all_scopes ls' = all_scopes ls.
Proof.
  induction ls as [|l ls IH]; intros pc ls' H; cbn [layout] in H; [injection H as <-; reflexivity|].
  bok H as pc' E. destruct pc' as [a|].
  - bok H as rest R. injection H as <-. apply IH in R. unfold all_scopes in *. cbn. rewrite R. f_equal.
    destruct (stmt_is_dir D_equ (ln_stmt l)); reflexivity.
  - destruct (0 <? stmt_size (ln_stmt l)); [discriminate|]. bok H as rest R. injection H as <-. apply IH in R.
    unfold all_scopes in *. cbn. rewrite R. reflexivity.
Qed.
Lemma first_pass_scopes : forall fuel m m', run_first_pass fuel m = Ok m' -> same_scopes m m'.
Proof.
  intros fuel m m' H. unfold run_first_pass in H. bok H as ls E. bok H as ls2 E2. bok H as ls3 E3. injection H as <-.
  apply first_pass_loop_scopes in E. apply fix_modes_scopes in E2. apply layout_scopes in E3.
  split; [reflexivity|]. split; [reflexivity|]. unfold all_scopes, line_scopes in *. cbn. congruence.
Qed.
Lemma same_scopes_refl : forall m, same_scopes m m.
Proof. intros. split; [reflexivity|]. split; reflexivity. Qed.
Lemma same_scopes_trans : forall a b c, same_scopes a b -> same_scopes b c -> same_scopes a c.
Proof. intros a b c (A1 & A2 & A3) (B1 & B2 & B3). split; [congruence|]. split; congruence. Qed.
Lemma second_pass_loop_scopes : forall n k ext m m', second_pass_loop n k ext m = Ok m' -> same_scopes m m'.
Proof.
  induction n as [|n IH]; intros k ext m m' H; cbn [second_pass_loop] in H; [injection H as <-; apply same_scopes_refl|].
  destruct (znth (md_lines m) k) as [l|] eqn:L; [|injection H as <-; apply same_scopes_refl].
  bok H as m1 E. apply IH in H. eapply same_scopes_trans; [|exact H]. clear H IH.
  destruct (ln_stmt l) as [i|d]; [injection E as <-; apply same_scopes_refl|].
  destruct (d_name d); try (injection E as <-; apply same_scopes_refl).
  destruct (ln_value l); [injection E as <-; apply same_scopes_refl|]. bok E as v V. injection E as <-.
  split; [reflexivity|]. split; [reflexivity|]. apply (zset_scopes _ _ l); auto.
Qed.
Lemma second_pass_scopes : forall ext m m', run_second_pass ext m = Ok m' -> same_scopes m m'.
Proof. intros ext m m' H. eapply second_pass_loop_scopes. exact H. Qed.
