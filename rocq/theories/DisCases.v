(** Deciding the hypotheses of the disassembler theorems for concrete images. *)
From Verif Require Import Base ModelNumeric ModelAddress ModelExpr ModelMnemonic ModelAMode ModelState ModelInstr ModelMap ModelRom ModelDisasm
  SpecArith SpecInstr SpecState SpecFlow SpecDisasm Spec65816 BaseProofs MapProofs.
Open Scope list_scope.
Open Scope Z_scope.

(** A LoROM image that begins with the given bytes, at 00:8000. *)
Definition image (code : list Z) : source := rom_read (Rom LoRom (code ++ repeat 0xEA 64)).
Definition bytes_b (l : list Z) : bool := forallb (fun b => (0 <=? b) && (b <? 256)) l.
Lemma bytes_b_ok : forall l, bytes_b l = true -> bytes_ok l.
Proof. intros l H. unfold bytes_b in H. rewrite forallb_forall in H. apply Forall_forall. intros b IN. specialize (H b IN). apply andb_true_iff in H. destruct H as [H1 H2]. lia. Qed.
Lemma firstn_ok : forall n l, bytes_ok l -> bytes_ok (firstn n l).
Proof. intros n l H. unfold bytes_ok in *. rewrite Forall_forall in *. intros b IN. apply H. rewrite <- (firstn_skipn n l). apply in_or_app. left. exact IN. Qed.
Lemma skipn_ok : forall n l, bytes_ok l -> bytes_ok (skipn n l).
Proof. intros n l H. unfold bytes_ok in *. rewrite Forall_forall in *. intros b IN. apply H. rewrite <- (firstn_skipn n l). apply in_or_app. right. exact IN. Qed.
Lemma rom_bytes : forall r, bytes_ok (rom_data r) -> byte_source (rom_read r).
Proof.
  intros r B a n l H. unfold rom_read in H. destruct (n =? 0); [injection H as <-; constructor|]. destruct (n <? 0); [discriminate H|].
  bok H as x E. bok H as y F. destruct (x <? y).
  - destruct (zlen (rom_data r) <=? y); [discriminate H|]. injection H as <-. apply firstn_ok, skipn_ok. exact B.
  - clear E F. revert H. generalize 0 at 1. generalize (Z.to_nat n). clear n. intros n. revert l. induction n as [|n IH]; intros l i H; cbn in H; [injection H as <-; constructor|].
    bok H as o E. destruct (znth (rom_data r) o) as [b|] eqn:ZN; [|discriminate H]. bok H as rest F. injection H as <-. constructor; [|eapply IH; exact F].
    unfold znth in ZN. destruct (o <? 0); [discriminate ZN|]. apply nth_error_In in ZN. unfold bytes_ok in B. rewrite Forall_forall in B. apply B. exact ZN.
Qed.
Lemma image_bytes : forall code, bytes_b code = true -> byte_source (image code).
Proof. intros code H. apply rom_bytes. cbn [rom_data]. apply Forall_app. split; [apply bytes_b_ok; exact H|]. apply Forall_forall. intros b IN. apply repeat_spec in IN. subst b. lia. Qed.
Lemma rom_fuel : forall r a n, rom_read r a n <> OutOfFuel.
Proof.
  intros r a n. unfold rom_read. destruct (n =? 0); [discriminate|]. destruct (n <? 0); [discriminate|].
  assert (SN : forall b m, snes_to_rom b m <> OutOfFuel).
  { intros b m. unfold snes_to_rom. cbv zeta. destruct (_ || _); [discriminate|]. destruct (_ && _); [discriminate|]. destruct m; try discriminate. destruct (_ <? _); discriminate. }
  pose proof (SN a (rom_mapping r)) as S1. destruct (snes_to_rom a (rom_mapping r)) as [x| | |]; cbn [bind]; try discriminate; [|contradiction].
  pose proof (SN (add_wrapped a (n - 1)) (rom_mapping r)) as S2. destruct (snes_to_rom (add_wrapped a (n - 1)) (rom_mapping r)) as [y| | |]; cbn [bind]; try discriminate; [|contradiction].
  destruct (x <? y); [destruct (_ <=? _); discriminate|]. clear S1 S2. generalize 0 at 1. induction (Z.to_nat n) as [|k IH]; intros i; cbn; [discriminate|].
  pose proof (SN (add_wrapped a i) (rom_mapping r)) as S3. destruct (snes_to_rom (add_wrapped a i) (rom_mapping r)) as [o| | |]; cbn [bind]; try discriminate; [|contradiction].
  destruct (znth (rom_data r) o); [|discriminate]. specialize (IH (i + 1)). destruct (read_loop r a (i + 1) k); cbn [bind]; try discriminate. contradiction.
Qed.

(** The disassembler after requests for the given entries, and what the last one returned. *)
Fixpoint after (src : source) (rets : omap retconv) (q : list (Z * flags)) : disassembler * res (omap flags) :=
  match q with
  | [] => (add_target_return_conventions rets new_disassembler, Ok [])
  | (a, f) :: q' => disassemble 1000 src a f (fst (after src rets q'))
  end.
Definition consistent_b (f : flags) : bool :=
  let w e b := match e with B_on => match b with B_on => true | _ => false end | B_off => true | B_original => match b with B_off => false | _ => true end
               | B_unknown => match b with B_on | B_unknown => true | _ => false end end in
  w (fl_e f) (fl_m f) && w (fl_e f) (fl_x f).
Lemma consistent_ok : forall f, consistent_b f = true -> consistent f.
Proof. intros [e m x c] H. unfold consistent_b in H. apply andb_true_iff in H. destruct H as [H1 H2]. cbn in *. split; cbn; [destruct e, m|destruct e, x]; cbn in *; try discriminate; auto. Qed.
Definition is_ok {A} (r : res A) : bool := match r with Ok _ => true | _ => false end.
Fixpoint all_ok (src : source) (rets : omap retconv) (q : list (Z * flags)) : bool :=
  match q with
  | [] => true
  | (a, f) :: q' => all_ok src rets q' && (0 <=? a) && (a <? 2 ^ 24) && consistent_b f && is_ok (snd (after src rets q))
  end.
Lemma after_ok : forall src rets q, all_ok src rets q = true -> session src rets q (fst (after src rets q)).
Proof.
  intros src rets q. induction q as [|[a f] q IH]; intros H; [constructor|]. cbn [all_ok] in H.
  apply andb_true_iff in H. destruct H as [H OK]. apply andb_true_iff in H. destruct H as [H CF]. apply andb_true_iff in H. destruct H as [H A2]. apply andb_true_iff in H. destruct H as [H A1].
  cbn [after] in *. destruct (disassemble 1000 src a f (fst (after src rets q))) as [d' r] eqn:E. cbn in OK |- *. destruct r as [far| | |]; try discriminate OK.
  change ((a, f) :: q) with (match Ok far with Ok _ => (a, f) :: q | _ => q end).
  eapply se_request; [exact (IH H)|unfold addr24; lia|apply consistent_ok; exact CF|exact E].
Qed.
Definition followed_b (m : omap dinstr) : bool :=
  forallb (fun kv => let c := snd kv in negb (stack_untracked (i_mnem (di_instr c))) &&
    (negb (mnem_eqb (i_mnem (di_instr c)) M_xce) || match fl_e (es_flags (di_cur c)), fl_c (es_flags (di_cur c)) with B_original, _ | _, B_original => false | _, _ => true end)) m.
Lemma followed_ok : forall d, followed_b (ds_map d) = true -> followed d.
Proof.
  intros d H pc c K. unfold followed_b in H. rewrite forallb_forall in H. apply om_find_in in K. specialize (H _ K). cbn in H. apply andb_true_iff in H. destruct H as [H1 H2].
  apply negb_true_iff in H1. split; [exact H1|]. intros X. rewrite X in H2. cbn in H2. destruct (fl_e _), (fl_c _); try discriminate H2; split; discriminate.
Qed.
Lemma no_conventions : conventions_ok [].
Proof. intros t r F. discriminate F. Qed.
(** What is collected at an address. *)
Definition at_b (d : disassembler) (pc : Z) : option (mnemonic * suffix * flags * stack) :=
  option_map (fun c => (i_mnem (di_instr c), i_suffix (di_instr c), es_flags (di_cur c), es_stack (di_cur c))) (om_find pc (ds_map d)).
Lemma at_ok : forall d pc m s f k, at_b d pc = Some (m, s, f, k) ->
  exists c, collected d pc c /\ i_mnem (di_instr c) = m /\ i_suffix (di_instr c) = s /\ es_flags (di_cur c) = f /\ es_stack (di_cur c) = k.
Proof. intros d pc m s f k H. unfold at_b in H. unfold collected. destruct (om_find pc (ds_map d)) as [c|]; [|discriminate H]. injection H as <- <- <- <-. exists c. auto. Qed.
Lemma far_ok : forall src rets q a f, is_ok (snd (after src rets ((a, f) :: q))) = true ->
  disassemble 1000 src a f (fst (after src rets q)) = (fst (after src rets ((a, f) :: q)), Ok (match snd (after src rets ((a, f) :: q)) with Ok m => m | _ => [] end)).
Proof. intros src rets q a f H. cbn [after] in *. destruct (disassemble 1000 src a f _) as [d r]. cbn in *. destruct r; try discriminate H. reflexivity. Qed.
Lemma conv_ok : forall rets, forallb (fun kv => match snd kv with RC_yields f => consistent_b f | _ => true end) rets = true -> conventions_ok rets.
Proof. intros rets H t r F. apply om_find_in in F. rewrite forallb_forall in H. specialize (H _ F). cbn in H. destruct r; try exact I. apply consistent_ok. exact H. Qed.
