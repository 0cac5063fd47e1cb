(** Proofs that an output sink takes part in assembling only by ending it. *)
From Verif Require Import Base ModelNumeric ModelAddress ModelState ModelExpr ModelInstr ModelMap ModelRanges ModelStatement ModelModule ModelAssembler SpecSink BaseProofs.
Open Scope list_scope.
Open Scope Z_scope.

Lemma offer_app : forall sk t1 ws t2, offer sk ws (t1 ++ t2) = match offer sk ws t1 with (ws', Ok _) => offer sk ws' t2 | x => x end.
Proof. intros sk. induction t1 as [|w t1 IH]; intros ws t2; [reflexivity|]. cbn [app offer]. destruct (sk ws w) as [u|e|u|]; [apply IH|reflexivity..]. Qed.
Lemma offer_ok : forall sk t ws ws' u, offer sk ws t = (ws', Ok u) -> ws' = ws ++ t.
Proof.
  intros sk. induction t as [|w t IH]; intros ws ws' u H; cbn [offer] in H; [injection H as <- _; symmetry; apply app_nil_r|].
  destruct (sk ws w) as [v|e|v|]; [|discriminate H..]. rewrite (IH _ _ _ H), <- app_assoc. reflexivity.
Qed.
Definition sinky {A} (P : sink -> list write -> wres A) : Prop :=
  forall sk ws, exists t, fst (P takes_all ws) = ws ++ t /\ P sk ws = unless_ended (offer sk ws t) (snd (P takes_all ws)).
Lemma sinky_pure : forall A (r : res A), sinky (fun _ ws => (ws, r)).
Proof. intros A r sk ws. exists []. cbn. rewrite app_nil_r. auto. Qed.
Lemma sinky_bind : forall A B (P : sink -> list write -> wres A) (f : sink -> list write -> A -> wres B), sinky P -> (forall a, sinky (fun sk ws => f sk ws a)) -> sinky (fun sk ws => wbind (P sk ws) (f sk)).
Proof.
  intros A B P f HP HF sk ws. destruct (HP sk ws) as (t & T & E). rewrite E. destruct (P takes_all ws) as [ws1 r]. cbn [fst snd] in *. subst ws1.
  destruct r as [a|e|u|]; cbn [wbind].
  - destruct (HF a sk (ws ++ t)) as (t2 & T2 & E2). exists (t ++ t2). rewrite app_assoc. split; [exact T2|]. rewrite offer_app. destruct (offer sk ws t) as [ws' [u|e|u|]] eqn:O; cbn [unless_ended wbind]; [|reflexivity..].
    apply offer_ok in O. subst ws'. rewrite E2. reflexivity.
  - exists t. split; [reflexivity|]. destruct (offer sk ws t) as [ws' [v|e'|v|]]; reflexivity.
  - exists t. split; [reflexivity|]. destruct (offer sk ws t) as [ws' [v|e'|v|]]; reflexivity.
  - exists t. split; [reflexivity|]. destruct (offer sk ws t) as [ws' [v|e'|v|]]; reflexivity.
Qed.
Lemma sinky_write : forall w, sinky (fun sk ws => sink_write sk ws w).
Proof. intros w sk ws. exists [w]. split; [reflexivity|]. unfold sink_write. cbn. destruct (sk ws w) as [u|e|u|]; reflexivity. Qed.
Lemma sinky_stmt : forall a c s, sinky (fun sk ws => stmt_assemble sk ws a c s).
Proof. intros a c s. unfold stmt_assemble. destruct (stmt_bytes a c s) as [[b|]|e|u|]; [apply sinky_write|apply (sinky_pure unit)..]. Qed.
Lemma sinky_line : forall ext l m, sinky (fun sk ws => assemble_stmt sk ext l ws m).
Proof.
  intros ext l m. unfold assemble_stmt. cbv zeta. destruct (0 <? stmt_size (ln_stmt l)).
  - destruct (ln_value l) as [v|]; [|apply (sinky_pure module)].
    apply (sinky_bind _ _ (fun sk ws => (ws, label_to_address v)) (fun sk ws a => _)); [apply sinky_pure|]. intros a.
    apply (sinky_bind _ _ (fun sk ws => stmt_assemble sk ws a (module_ctx m (ln_scopes l) ext) (ln_stmt l)) (fun sk ws _ => _)); [apply sinky_stmt|]. intros _.
    apply (sinky_bind _ _ (fun sk ws => (ws, claim_bytes (md_owned m) a (stmt_size (ln_stmt l)))) (fun sk ws p => let '(ok, owned) := p in if ok then (ws, Ok (md_with_owned owned m)) else (ws, Err E_overlap))); [apply sinky_pure|].
    intros [[] owned]; apply (sinky_pure module).
  - destruct (ln_stmt l) as [i|d]; [apply (sinky_pure module)|]. destruct (d_name d); try apply (sinky_pure module). destruct (ln_value l); apply (sinky_pure module).
Qed.
Lemma sinky_lines : forall ext ls m, sinky (fun sk ws => assemble_lines sk ext ls ws m).
Proof.
  intros ext. induction ls as [|l ls IH]; intros m; cbn [assemble_lines]; [apply sinky_pure|].
  apply (sinky_bind _ _ (fun sk ws => assemble_stmt sk ext l ws m)
    (fun sk ws m => wbind (ws, match ln_stmt l with SInstr i => record_far_target l i m | SDir _ => Ok m end) (fun ws m => assemble_lines sk ext ls ws m))); [apply sinky_line|]. intros m1.
  apply (sinky_bind _ _ (fun sk ws => (ws, match ln_stmt l with SInstr i => record_far_target l i m1 | SDir _ => Ok m1 end)) (fun sk ws m => assemble_lines sk ext ls ws m)); [apply sinky_pure|exact IH].
Qed.
Lemma sinky_module : forall ext m, sinky (fun sk ws => module_assemble sk ext ws m).
Proof.
  intros ext m. unfold module_assemble.
  apply (sinky_bind _ _ (fun sk ws => assemble_lines sk ext (md_lines m) ws m) (fun sk ws m => (ws, let* names := name_addresses (md_lines m) (md_globals m) (md_addr_names m) in Ok (md_with_addr_names names m)))); [apply sinky_lines|]. intros m1. apply sinky_pure.
Qed.
Lemma sinky_modules : forall order names ms rm, sinky (fun sk ws => assemble_modules sk order names ws ms rm).
Proof.
  induction order as [|i order IH]; intros names ms rm; cbn [assemble_modules]; [apply sinky_pure|]. destruct (znth ms i) as [m|]; [|apply (sinky_pure (list module * rangemap Z))].
  apply (sinky_bind _ _ (fun sk ws => module_assemble sk (assembler_ctx ms names) ws m)
    (fun sk ws m' => let (ok, rm') := rm_insert rm (md_owned m') i in if ok then assemble_modules sk order names ws (zset i m' ms) rm' else (ws, Err E_overlap))); [apply sinky_module|].
  intros m'. destruct (rm_insert rm (md_owned m') i) as [[] rm']; [apply IH|apply (sinky_pure (list module * rangemap Z))].
Qed.
Lemma sinky_assembler : forall fuel a, sinky (fun sk ws => match ws with [] => assembler_assemble fuel sk a | _ => (ws, OutOfFuel) end).
Proof.
  intros fuel a sk ws. destruct ws as [|w ws]; [|apply (sinky_pure assembler OutOfFuel sk (w :: ws))].
  set (Q := fun sk ws => wbind (ws, find_assembly_order (as_mods a)) (fun ws '(order, names) =>
  wbind (ws, first_passes fuel order (as_mods a)) (fun ws ms =>
  wbind (ws, second_passes order names ms) (fun ws ms =>
  wbind (assemble_modules sk order names ws ms (as_map a)) (fun ws '(ms, rm) =>
  (ws, Ok (Assembler ms rm names))))))).
  assert (SQ : sinky Q).
  { unfold Q. apply (sinky_bind _ _ (fun sk ws => (ws, find_assembly_order (as_mods a))) (fun sk ws p => let '(order, names) := p in _)); [apply sinky_pure|]. intros [order names].
    apply (sinky_bind _ _ (fun sk ws => (ws, first_passes fuel order (as_mods a))) (fun sk ws ms => _)); [apply sinky_pure|]. intros ms.
    apply (sinky_bind _ _ (fun sk ws => (ws, second_passes order names ms)) (fun sk ws ms => _)); [apply sinky_pure|]. intros ms2.
    apply (sinky_bind _ _ (fun sk ws => assemble_modules sk order names ws ms2 (as_map a)) (fun sk ws p => let '(ms, rm) := p in (ws, Ok (Assembler ms rm names)))); [apply sinky_modules|]. intros [ms3 rm]. apply sinky_pure. }
  exact (SQ sk []).
Qed.
Lemma sink_only_ends : forall fuel sk files ws r, assemble fuel takes_all files = (ws, r) -> assemble fuel sk files = unless_ended (offer sk [] ws) r.
Proof.
  intros fuel sk files ws r H. unfold assemble in *. destruct (add_files empty_assembler files) as [a|e|u|]; cbn [wbind] in *; [|injection H as <- <-; reflexivity..].
  destruct (sinky_assembler fuel a sk []) as (t & T & E). cbn beta iota in T, E. rewrite H in T, E. cbn in T, E. subst t. exact E.
Qed.
