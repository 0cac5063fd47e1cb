(** Proofs about the messages of FindAssemblyOrder. *)
From Coq Require Import Lia.
From Verif Require Import BaseProofs ModelNumeric ModelAddress ModelMnemonic ModelExpr ModelAMode ModelOpcode
  ModelState ModelInstr ModelToken ModelStatement ModelParse ModelMap ModelModule ModelAssembler ModelLocation ModelRomText ModelParseText ModelOrderText
  SpecScope SpecLayout SpecAssemble SpecLocation SpecOrderText MapProofs TokenProofs OrderProofs LocationProofs LocatedProofs.
Open Scope string_scope.
Open Scope list_scope.
Open Scope Z_scope.

(** ** Without messages. *)
Lemma plain_exports : forall i exported names, untold (t_add_exports i exported names) = ladd_exports i exported names.
Proof.
  intros i. induction exported as [|[id l] rest IH]; intros names; cbn [t_add_exports ladd_exports]; [reflexivity|]. destruct (assoc_id id names) as [[j first]|]; [|apply IH].
  reflexivity.
Qed.
Lemma plain_sweep : forall ms i order names found, untold (t_order_sweep i ms order names found) = lorder_sweep i ms order names found.
Proof.
  induction ms as [|m ms IH]; intros i order names found; cbn [t_order_sweep lorder_sweep]; [reflexivity|]. destruct (existsb _ order); [apply IH|]. destruct (forallb _ _); [|apply IH].
  rewrite <- plain_exports. destruct (t_add_exports _ _ _); cbn [pbind untold lbind]; try reflexivity. apply IH.
Qed.
Lemma plain_loop : forall fuel ms order names, untold (t_order_loop fuel ms order names) = lorder_loop fuel ms order names.
Proof.
  induction fuel as [|fuel IH]; intros ms order names; cbn [t_order_loop lorder_loop]; destruct (_ <? _); try reflexivity.
  rewrite <- plain_sweep. destruct (t_order_sweep _ _ _ _ _) as [[[o n] found]|er|u|]; cbn [pbind untold lbind]; try reflexivity. destruct found; [apply IH|reflexivity].
Qed.

(** ** What is said. *)
Definition dup_text (id : fullid) (l : location) : string := ("Duplicate defintion of `" ++ fullid_to_string id ++ "` (conflicting definition at " ++ loc_to_string l ++ ")")%string.
Definition told (id : fullid) (l l' : location) (er : rerror) : Prop := er = RError E_duplicate (dup_text id l') l.
Lemma exports_told : forall i exported names er, NoDup (map fst exported) -> t_add_exports i exported names = PErr er ->
  exists id l l' j, In (id, (j, l)) names /\ In (id, l') exported /\ told id l l' er.
Proof.
  intros i. induction exported as [|[id l] rest IH]; intros names er N H; cbn [t_add_exports] in H; [discriminate|]. inversion N as [|? ? NI N']; subst.
  destruct (assoc_id id names) as [[j first]|] eqn:A.
  - injection H as <-. rewrite update_no. exists id, first, l, j. split; [eapply assoc_id_in; exact A|]. split; [left; reflexivity|reflexivity].
  - destruct (IH _ _ N' H) as (id' & l1 & l2 & j & I1 & I2 & T). exists id', l1, l2, j. split; [|split; [right; exact I2|exact T]].
    apply in_app_iff in I1. destruct I1 as [I1|[I1|[]]]; [exact I1|]. injection I1 as <- _ _. destruct NI. apply (in_map fst) in I2. exact I2.
Qed.
Definition clash_told (ms : list lmodule) (er : rerror) : Prop :=
  exists i j lm lm' id l l', i <> j /\ znth ms i = Some lm /\ znth ms j = Some lm' /\ In (id, l) (lexported_names lm) /\ In (id, l') (lexported_names lm') /\ told id l l' er.
Lemma sweep_told : forall all, Forall (fun lm => NoDup (map fst (lexported_names lm))) all -> forall ms i order names found er, 0 <= i ->
  (forall k lm, znth ms k = Some lm -> znth all (i + k) = Some lm) -> named_by all order names -> t_order_sweep i ms order names found = PErr er -> clash_told all er.
Proof.
  intros all ND. induction ms as [|m ms IH]; intros i order names found er I0 Z0 NB H; cbn [t_order_sweep] in H; [discriminate|].
  assert (ZI : znth all i = Some m) by (rewrite <- (Z.add_0_r i); apply Z0; reflexivity).
  assert (ZT : forall k lm, znth ms k = Some lm -> znth all (i + 1 + k) = Some lm).
  { intros k lm X. pose proof (znth_some _ _ _ _ X). replace (i + 1 + k) with (i + (k + 1)) by lia. apply Z0. rewrite znth_cons by lia. replace (k + 1 - 1) with k by lia. exact X. }
  destruct (existsb (Z.eqb i) order) eqn:X; [eapply IH; [| | |exact H]; [lia|exact ZT|exact NB]|].
  assert (NO : ~ In i order).
  { intros Y. assert (existsb (Z.eqb i) order = true); [|congruence]. apply existsb_exists. exists i. split; [exact Y|apply Z.eqb_refl]. }
  destruct (forallb _ (md_deps (lm_mod m))); [|eapply IH; [| | |exact H]; [lia|exact ZT|exact NB]].
  assert (NM : NoDup (map fst (lexported_names m))) by (rewrite Forall_forall in ND; exact (ND m (znth_in _ _ _ _ ZI))).
  pose proof (exports_loc i (lexported_names m) names NM) as EL. rewrite <- plain_exports in EL.
  destruct (t_add_exports i (lexported_names m) names) as [names'|e|u|] eqn:T; cbn [pbind untold] in *; try discriminate.
  - eapply IH; [| | |exact H]; [lia|exact ZT|]. subst names'. intros id j l I. apply in_app_iff in I. destruct I as [I|I].
    + destruct (NB id j l I) as [A B]. split; [apply in_or_app; auto|exact B].
    + apply in_map_iff in I. destruct I as ([id' l'] & E & I). injection E as <- <- <-. split; [apply in_or_app; right; left; reflexivity|eauto].
  - injection H as ->. destruct (exports_told _ _ _ _ NM T) as (id & l & l' & j & I1 & I2 & TD). destruct (NB id j l I1) as (A & lm & ZJ & B).
    exists j, i, lm, m, id, l, l'. split; [congruence|auto].
Qed.
Lemma loop_told : forall all, Forall (fun lm => NoDup (map fst (lexported_names lm))) all -> forall fuel order names er, named_by all order names ->
  t_order_loop fuel all order names = PErr er -> clash_told all er \/ er = RError E_cycle "Cyclic dependency in .equ definitions" no_location.
Proof.
  intros all ND. induction fuel as [|fuel IH]; intros order names er NB H; cbn [t_order_loop] in H; destruct (_ <? _); try discriminate.
  assert (Z0 : forall k lm, znth all k = Some lm -> znth all (0 + k) = Some lm) by (intros k lm X; rewrite Z.add_0_l; exact X).
  pose proof (sweep_loc all ND all 0 order names false ltac:(lia) Z0 NB) as SL. rewrite <- plain_sweep in SL.
  destruct (t_order_sweep 0 all order names false) as [[[order' names'] found]|e|u|] eqn:T; cbn [pbind untold] in *; try discriminate.
  - destruct found; [exact (IH _ _ _ SL H)|]. injection H as <-. right. reflexivity.
  - injection H as ->. left. exact (sweep_told all ND all 0 order names false er ltac:(lia) Z0 NB T).
Qed.
Lemma line_string : forall path k, path <> "" -> loc_to_string (line_of path k) = (path ++ ":" ++ dec_string k)%string.
Proof. intros path k N. unfold loc_to_string, line_of. cbn [loc_path loc_offset]. apply String.eqb_neq in N. rewrite N. reflexivity. Qed.
Lemma order_told : forall (files : list (string * list string)) ms er, Forall (fun f => fst f <> "") files -> lload_files files = LOk ms -> t_find_assembly_order ms = PErr er ->
  er = RError E_cycle "Cyclic dependency in .equ definitions" no_location \/
  exists i j path path' file file' src src' mn n k k', nth_error files i = Some (path, file) /\ nth_error files j = Some (path', file') /\ i <> j /\
    reads file src /\ reads file' src' /\ module_named src mn /\ module_named src' mn /\ defined src None n k /\ defined src' None n k' /\ re_kind er = E_duplicate /\
    error_to_string (re_loc er) (re_text er) =
      (path ++ ":" ++ dec_string k ++ ": Duplicate defintion of `" ++ mn ++ "::" ++ n ++ "` (conflicting definition at " ++ path' ++ ":" ++ dec_string k' ++ ")")%string.
Proof.
  intros files ms er NE LF H. pose proof (files_loc files) as FL. rewrite LF in FL.
  assert (ND : Forall (fun lm => NoDup (map fst (lexported_names lm))) ms).
  { clear -FL. induction FL as [|f m fs ms L F IH]; constructor; [apply (loaded_exports _ _ L)|exact IH]. }
  assert (NT : forall i lm, znth ms i = Some lm -> exists f, nth_error files (Z.to_nat i) = Some f /\ loaded_file f lm).
  { intros i lm Z. apply znth_nth_error in Z. clear -FL Z. revert Z. generalize (Z.to_nat i). induction FL as [|f m fs ms L F IH]; intros [|k] Z; try discriminate.
    - injection Z as <-. exists f. split; [reflexivity|exact L].
    - exact (IH k Z). }
  apply loop_told in H; [|exact ND|intros id i l []]. destruct H as [(i & j & lm & lm' & id & l & l' & IJ & Z1 & Z2 & I1 & I2 & T)|E]; [right|left; exact E].
  pose proof (znth_some _ _ _ _ Z1) as R1. pose proof (znth_some _ _ _ _ Z2) as R2.
  destruct (NT _ _ Z1) as ([path file] & F1 & L1). destruct (NT _ _ Z2) as ([path' file'] & F2 & L2).
  destruct (proj2 (loaded_exports _ _ L1) _ _ I1) as (src & mn & n & k & RD & MN & DF & E1 & ->).
  destruct (proj2 (loaded_exports _ _ L2) _ _ I2) as (src' & mn' & n' & k' & RD' & MN' & DF' & E2 & ->). rewrite E1 in E2. injection E2 as <- <-. cbn [fst snd] in *.
  exists (Z.to_nat i), (Z.to_nat j), path, path', file, file', src, src', mn, n, k, k'. split; [exact F1|]. split; [exact F2|]. split; [intros X; apply IJ; apply Z2Nat.inj in X; [exact X|lia|lia]|].
  repeat (split; [assumption|]). rewrite T. split; [reflexivity|]. cbn [re_loc re_text]. rewrite Forall_forall in NE.
  pose proof (NE _ (nth_error_In _ _ F1)) as N1. pose proof (NE _ (nth_error_In _ _ F2)) as N2. cbn [fst] in N1, N2.
  unfold error_to_string, dup_text. rewrite (line_string path k N1), (line_string path' k' N2), E1.
  destruct (String.eqb_spec (path ++ ":" ++ dec_string k) "") as [X|_]; [destruct path; discriminate X|]. cbn [fullid_to_string fi_module fi_name].
  rewrite !sapp_assoc. reflexivity.
Qed.
