(** A listing that is accepted has no overlapping instructions. *)
From Verif Require Import Base ModelNumeric ModelExpr ModelMnemonic ModelState ModelInstr ModelMap ModelModule ModelAssembler ModelRom ModelDisasm ModelTools
  SpecArith SpecInstr SpecState SpecDisasm SpecListing SpecText SpecAssemble SpecTools BaseProofs MapProofs AssembleProofs RoundProofs ToolProofs PropertiesAssemble PropertiesTools.
Open Scope list_scope.
Open Scope Z_scope.

Lemma listing_apart : forall src rets q d d' fuel sk ws asm, conventions_ok rets -> readable rets -> byte_source src -> session src rets q d -> ds_sym d < 2 ^ 31 -> cleanup d = Ok d' ->
  assemble fuel sk [ModelTools.listing (ds_map d')] = (ws, Ok asm) ->
  forall a c b x k l, collected d' a c -> collected d' b x -> 0 <= k < instr_size (di_instr c) -> 0 <= l < instr_size (di_instr x) -> same_bank_plus a k = same_bank_plus b l -> a = b.
Proof.
  intros src rets q d d' fuel sk ws asm CO RD BS S SY CL A a c b x k l Ka Kb Rk Rl E.
  pose proof (C46_reassembles _ _ _ _ _ _ _ _ _ CO RD BS S SY CL A) as F. destruct (C28_no_overlap _ _ _ _ _ A) as [N _].
  destruct (In_nth_error _ _ (om_find_in _ _ _ _ Ka)) as (i & I). destruct (In_nth_error _ _ (om_find_in _ _ _ _ Kb)) as (j & J).
  destruct (forall2_at _ _ _ _ _ F _ _ I) as (w & W & Wa & Ws & _). destruct (forall2_at _ _ _ _ _ F _ _ J) as (v & V & Va & Vs & _). cbn [fst snd] in *.
  assert (T : forall w0 h n, fst w0 = h -> 0 <= n < zlen (snd w0) -> In (same_bank_plus h n) (touched w0)).
  { intros w0 h n <- R. unfold touched. apply in_map_iff. exists (Z.to_nat n). unfold zlen in R. rewrite Z2Nat.id by lia. split; [reflexivity|]. apply in_seq. lia. }
  assert (i = j) as <-.
  { apply (shared_once _ touched ws N i j w v (same_bank_plus a k) W V); [apply T; [exact Wa|lia]|]. rewrite E. apply T; [exact Va|lia]. }
  rewrite I in J. injection J as <- _. reflexivity.
Qed.
