(** What an assembled program says to the disassembler does not depend on the order of the files. *)
From Coq Require Import Permutation.
From Verif Require Import Base BaseProofs ModelNumeric ModelAddress ModelExpr ModelMnemonic ModelAMode ModelOpcode ModelState ModelInstr ModelToken
  ModelStatement ModelParse ModelMap ModelRanges ModelModule ModelAssembler SpecState SpecScope SpecRanges SpecLayout SpecAssemble SpecSafe
  MapProofs StateProofs DisStateProofs LoadProofs SafeProgramProofs ProgramProofs ModesProofs PermuteProofs.
Open Scope string_scope.
Open Scope list_scope.
Open Scope Z_scope.

Lemma lines_fresh : forall defs src sc k l, In l (mk_lines defs k sc src) -> es_consistent (ln_in l).
Proof.
  intros defs. induction src as [|[la s] src IH]; intros sc k l I; cbn [mk_lines] in I; [destruct I|]. destruct I as [<-|I]; [|eapply IH; exact I].
  cbn. split; [split; cbn; auto|intros v []].
Qed.
Lemma file_con : forall files file m, In file files -> load_asm_file file = Ok m -> con_module m /\ md_targets m = [].
Proof.
  intros files file m F H. destruct (loaded_sane _ _ _ F H) as [_ S]. apply load_exact in H. destruct H as (src & name & R & _ & _ & ->). split; [|reflexivity].
  apply Forall_forall. intros l I. split; [apply (source_con files); apply S; exact I|]. eapply lines_fresh. exact I.
Qed.
Lemma part_con : forall fuel T t files, good_part fuel T t -> (exists file, In file files /\ load_asm_file file = Ok (p0 t)) -> con_targets (md_targets (p3 t)).
Proof.
  intros fuel T t files (R1 & _ & _ & _ & _ & G & ext & R3) (file & I & L). destruct (file_con _ _ _ I L) as [C0 T0].
  destruct (run_first_con _ _ _ R1 C0) as [C1 T1]. pose proof (grows_con _ _ G C1) as C2. destruct G as (_ & _ & _ & _ & _ & T2 & _).
  eapply module_targets; [exact R3|exact C2|]. rewrite T2, T1, T0. intros k f [].
Qed.
Lemma file_order : forall fuel sk files files' ws a, judges sk -> Permutation files files' -> assemble fuel sk files = (ws, Ok a) ->
  exists ws' a', assemble fuel sk files' = (ws', Ok a') /\ Permutation ws ws' /\ Permutation (as_mods a) (as_mods a') /\
    (forall x, assembler_contains a' x = assembler_contains a x) /\ jump_targets a' = jump_targets a.
Proof.
  intros fuel sk files files' ws a J P H. apply (judged_run _ _ _ _ _ J) in H. destruct H as [H F].
  destruct (order_free _ _ _ _ _ P H) as (ws' & a' & R & PW & PM & C & T & T' & PT & [SV _] & LD & E & E'). exists ws', a'. split; [|split; [exact PW|split; [exact PM|split; [exact C|]]]].
  - apply (judged_run _ _ _ _ _ J). split; [exact R|]. eapply Permutation_Forall; eassumption.
  - apply targets_perm; [exact PM|exact C|]. rewrite E. apply Forall_forall. intros m I. apply in_map_iff in I. destruct I as (t & <- & I).
    rewrite Forall_forall in SV, LD. eapply part_con; [apply SV; exact I|apply LD; exact I].
Qed.

(** ** Conventions and names: the first module that tells one. *)
Fixpoint first_told {A} (get : module -> option A) (ms : list module) : option A :=
  match ms with [] => None | m :: ms' => match get m with Some v => Some v | None => first_told get ms' end end.
Lemma inserts_sorted : forall (l : omap retconv) ret, sorted_keys ret -> sorted_keys (fold_left (fun ret kv => om_insert (fst kv) (snd kv) ret) l ret).
Proof. induction l as [|kv l IH]; intros ret S; cbn [fold_left]; [exact S|]. apply IH, om_insert_sorted, S. Qed.
Lemma inserts_find : forall (l : omap retconv) ret k, sorted_keys ret ->
  om_find k (fold_left (fun ret kv => om_insert (fst kv) (snd kv) ret) l ret) = match om_find k ret with Some v => Some v | None => om_find k l end.
Proof.
  induction l as [|[j v] l IH]; intros ret k S; cbn [fold_left om_find fst snd]; [destruct (om_find k ret); reflexivity|].
  rewrite IH by (apply om_insert_sorted; exact S). rewrite om_find_insert by exact S. destruct (Z.eqb_spec j k) as [->|N].
  - destruct (om_find k ret); reflexivity.
  - reflexivity.
Qed.
Lemma conventions_first : forall a k, om_find k (jump_target_return_conventions a) = first_told (fun m => om_find k (md_rets m)) (as_mods a) /\ sorted_keys (jump_target_return_conventions a).
Proof.
  intros a k. unfold jump_target_return_conventions.
  assert (X : forall ms ret, sorted_keys ret -> let r := fold_left (fun ret m => fold_left (fun ret kv => om_insert (fst kv) (snd kv) ret) (md_rets m) ret) ms ret in
            om_find k r = match om_find k ret with Some v => Some v | None => first_told (fun m => om_find k (md_rets m)) ms end /\ sorted_keys r).
  { induction ms as [|m ms IH]; intros ret S; cbn [fold_left first_told]; [split; [destruct (om_find k ret); reflexivity|exact S]|].
    destruct (IH _ (inserts_sorted (md_rets m) ret S)) as [A B]. split; [|exact B]. rewrite A, inserts_find by exact S.
    destruct (om_find k ret); [reflexivity|]. destruct (om_find k (md_rets m)); reflexivity. }
  destruct (X (as_mods a) [] Logic.I) as [A B]. split; [exact A|exact B].
Qed.
Lemma names_first : forall ms x, assembler_name_for_address ms x = first_told (fun m => name_for_address m x) ms.
Proof. induction ms as [|m ms IH]; intros x; cbn; [reflexivity|]. rewrite IH. reflexivity. Qed.
Lemma told_in : forall A (get : module -> option A) ms v, first_told get ms = Some v -> exists m, In m ms /\ get m = Some v.
Proof.
  induction ms as [|m ms IH]; intros v H; cbn in H; [discriminate H|]. destruct (get m) eqn:G; [injection H as <-; exists m; split; [left; reflexivity|exact G]|].
  destruct (IH _ H) as (m' & I & E). exists m'. split; [right; exact I|exact E].
Qed.
Lemma told_some : forall A (get : module -> option A) ms m v, In m ms -> get m = Some v -> exists w, first_told get ms = Some w.
Proof.
  induction ms as [|m0 ms IH]; intros m v I H; [destruct I|]. cbn. destruct I as [->|I]; [rewrite H; eauto|]. destruct (get m0); eauto.
Qed.
Lemma told_perm : forall A (get : module -> option A) ms ms', Permutation ms ms' -> (first_told get ms' = None <-> first_told get ms = None).
Proof.
  intros A get. assert (X : forall ms ms', Permutation ms ms' -> first_told get ms = None -> first_told get ms' = None).
  { intros ms ms' P H. destruct (first_told get ms') as [v|] eqn:E; [|reflexivity]. destruct (told_in _ _ _ _ E) as (m & I & G).
    destruct (told_some _ get ms m v (Permutation_in _ (Permutation_sym P) I) G) as [w W]. congruence. }
  intros ms ms' P. split; apply X; [apply Permutation_sym|]; exact P.
Qed.
Lemma told_agree : forall A (get : module -> option A) ms ms', Permutation ms ms' -> (forall m1 m2 v1 v2, In m1 ms -> In m2 ms -> get m1 = Some v1 -> get m2 = Some v2 -> v1 = v2) ->
  first_told get ms' = first_told get ms.
Proof.
  intros A get ms ms' P H. destruct (first_told get ms) as [v|] eqn:E.
  - destruct (told_in _ _ _ _ E) as (m & I & G). destruct (told_some _ get ms' m v (Permutation_in _ P I) G) as [w W]. rewrite W. f_equal.
    destruct (told_in _ _ _ _ W) as (m' & I' & G'). eapply H; [|exact I|exact G'|exact G]. eapply Permutation_in; [apply Permutation_sym; exact P|exact I'].
  - apply (told_perm _ get _ _ P). exact E.
Qed.
Lemma told_order : forall a a', Permutation (as_mods a) (as_mods a') ->
  (forall x, assembler_name_for_address (as_mods a') x = None <-> assembler_name_for_address (as_mods a) x = None) /\
  (forall x, om_find x (jump_target_return_conventions a') = None <-> om_find x (jump_target_return_conventions a) = None) /\
  ((forall m1 m2 x n1 n2, In m1 (as_mods a) -> In m2 (as_mods a) -> name_for_address m1 x = Some n1 -> name_for_address m2 x = Some n2 -> n1 = n2) ->
   forall x, assembler_name_for_address (as_mods a') x = assembler_name_for_address (as_mods a) x) /\
  ((forall m1 m2 x r1 r2, In m1 (as_mods a) -> In m2 (as_mods a) -> om_find x (md_rets m1) = Some r1 -> om_find x (md_rets m2) = Some r2 -> r1 = r2) ->
   jump_target_return_conventions a' = jump_target_return_conventions a).
Proof.
  intros a a' P. split; [|split; [|split]].
  - intros x. rewrite !names_first. apply told_perm. exact P.
  - intros x. rewrite (proj1 (conventions_first a x)), (proj1 (conventions_first a' x)). apply told_perm. exact P.
  - intros H x. rewrite !names_first. apply told_agree; [exact P|]. intros m1 m2 v1 v2. apply H.
  - intros H. apply sorted_ext; [apply (conventions_first a' 0)|apply (conventions_first a 0)|]. intros k. rewrite (proj1 (conventions_first a k)), (proj1 (conventions_first a' k)).
    apply told_agree; [exact P|]. intros m1 m2 v1 v2. apply H.
Qed.
