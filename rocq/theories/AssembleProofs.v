(** Proofs about assembling modules. *)
From Coq Require Import Permutation.
From Verif Require Import BaseProofs ModelNumeric ModelAddress ModelMnemonic ModelExpr ModelInstr ModelState
  ModelStatement ModelMap ModelRanges ModelModule ModelAssembler SpecArith ArithProofs SpecRanges RangesProofs SpecInstr
  InstrProofs MapProofs SpecScope SpecLayout SpecOrder OrderProofs LoadProofs ScopeProofs PassProofs LayoutProofs
  SpecAssemble.
Open Scope list_scope.

Lemma wbind_ok : forall A B (x : wres A) (f : list write -> A -> wres B) ws b, wbind x f = (ws, Ok b) ->
  exists ws1 a, x = (ws1, Ok a) /\ f ws1 a = (ws, Ok b).
Proof. intros A B [ws1 [a|e|u|]] f ws b H; cbn in H; try discriminate. eauto. Qed.

(** ** The bytes of writes. *)
Lemma touched_in : forall w x, In x (touched w) <-> claimed (fst w) (zlen (snd w)) x.
Proof.
  intros w x. unfold touched, claimed, zlen. rewrite in_map_iff. split.
  - intros (k & <- & I). apply in_seq in I. exists (Z.of_nat k). split; [lia|reflexivity].
  - intros (k & K & ->). exists (Z.to_nat k). rewrite in_seq, Z2Nat.id by lia. split; [reflexivity|lia].
Qed.
Lemma same_bank_plus_inj : forall a j k, 0 <= j < 65536 -> 0 <= k < 65536 ->
  same_bank_plus a j = same_bank_plus a k -> j = k.
Proof.
  intros a j k J K E. unfold same_bank_plus, bank_of, offset_of in E.
  change (2 ^ 16) with 65536 in E.
  assert (E' : (a mod 65536 + j) mod 65536 = (a mod 65536 + k) mod 65536) by lia. clear E. lia.
Qed.
Lemma nodup_map_in : forall A B (f : A -> B) l, NoDup l ->
  (forall x y, In x l -> In y l -> f x = f y -> x = y) -> NoDup (map f l).
Proof.
  intros A B f l N. induction N as [|x l NI N IH]; intros I; cbn; constructor.
  - intros M. apply in_map_iff in M. destruct M as (y & E & Y). apply I in E; [subst; contradiction|right; exact Y|left; reflexivity].
  - apply IH. intros a b A1 B1. apply I; right; assumption.
Qed.
Lemma touched_nodup : forall w, zlen (snd w) <= 65536 -> NoDup (touched w).
Proof.
  intros w L. unfold touched, zlen in *. apply nodup_map_in; [apply seq_NoDup|].
  intros j k J K E. apply in_seq in J, K. apply same_bank_plus_inj in E; lia.
Qed.

(** ** Modules that differ only in the results of assembling. *)
Definition same_code (m m' : module) : Prop :=
  md_name m' = md_name m /\ md_lines m' = md_lines m /\ md_globals m' = md_globals m /\ md_deps m' = md_deps m.
Lemma same_code_refl : forall m, same_code m m.
Proof. intros. repeat split. Qed.
Lemma same_code_trans : forall a b c, same_code a b -> same_code b c -> same_code a c.
Proof. intros a b c (A1 & A2 & A3 & A4) (B1 & B2 & B3 & B4). repeat split; congruence. Qed.
Lemma same_code_ctx : forall m m' sc ext, same_code m m' -> module_ctx m' sc ext = module_ctx m sc ext.
Proof.
  intros m m' sc ext (A1 & A2 & A3 & _). unfold module_ctx, local_index, local_lookup. rewrite A1, A2, A3. reflexivity.
Qed.

(** What a line writes, in a given context. *)
Definition line_write (ext : lookup_ctx) (m : module) (l : line) (w : write) : Prop :=
  (exists v, ln_value l = Some v /\ label_to_address v = Ok (fst w)) /\ addr24 (fst w) /\
  stmt_bytes (fst w) (module_ctx m (ln_scopes l) ext) (ln_stmt l) = Ok (Some (snd w)) /\
  zlen (snd w) = stmt_size (ln_stmt l).

Lemma claim_high : forall r a n ok r', claim_bytes r a n = Ok (ok, r') -> 0 <= a <= 2 ^ 24 -> 0 < n ->
  addr24 a.
Proof.
  intros r a n ok r' H R N. unfold addr24. destruct (Z.eq_dec a (2 ^ 24)) as [->|NE]; [|lia]. exfalso.
  unfold claim_bytes in H. replace (Z.to_nat (n / 65536 + 2)) with (S (Z.to_nat (n / 65536 + 1))) in H by lia.
  cbn [claim_loop] in H. destruct (Z.ltb_spec 0 n); [|lia]. bok H as l L. unfold add_unwrapped, mk_address in L.
  change (addr_low (2 ^ 24)) with 0 in L. rewrite to_uint32_small in L by lia.
  destruct (Z.leb_spec (2 ^ 24 + Z.min n (65536 - 0)) 16777216); [lia|discriminate L].
Qed.

Lemma Forall2_impl' : forall A B (P Q : A -> B -> Prop) l l', (forall x y, P x y -> Q x y) -> Forall2 P l l' -> Forall2 Q l l'.
Proof. intros A B P Q l l' I F. induction F; constructor; auto. Qed.

Lemma line_assemble_spec : forall sk ext l ws m ws' m', canonical (md_owned m) ->
  assemble_stmt sk ext l ws m = (ws', Ok m') ->
  same_code m m' /\ canonical (md_owned m') /\
  if has_bytes l then
    exists w, ws' = ws ++ [w] /\ sk ws w = Ok tt /\ line_write ext m l w /\
      (forall x, covers (md_owned m') x <-> covers (md_owned m) x \/ In x (touched w)) /\
      zlen (snd w) <= 65536 /\ (forall x, In x (touched w) -> ~ covers (md_owned m) x)
  else ws' = ws /\ md_owned m' = md_owned m.
Proof.
  intros sk ext l ws m ws' m' C H. unfold assemble_stmt in H. cbv zeta in H. unfold has_bytes.
  destruct (Z.ltb_spec 0 (stmt_size (ln_stmt l))) as [Z|Z].
  - destruct (ln_value l) as [v|] eqn:V; [|discriminate H].
    apply wbind_ok in H. destruct H as (ws1 & a & A & H). injection A as <- A.
    apply wbind_ok in H. destruct H as (ws2 & [] & B & H). apply wbind_ok in H.
    destruct H as (ws3 & [ok owned] & D & H). injection D as <- D.
    destruct ok; [|discriminate H]. injection H as <- <-. cbn [md_owned md_with_owned].
    assert (R : 0 <= a <= 2 ^ 24).
    { unfold label_to_address, mk_address in A. destruct (Z.leb_spec (to_uint32 v) 16777216); [|discriminate A].
      injection A as <-. unfold to_uint32 in *. lia. }
    assert (A24 : addr24 a) by (eapply claim_high; [exact D|exact R|exact Z]).
    destruct (claim_bytes_spec (md_owned m) a (stmt_size (ln_stmt l)) C A24) as (ok & r' & E & C' & CV & OK).
    rewrite D in E. injection E as <- <-. split; [repeat split|]. split; [exact C'|].
    pose proof (proj1 OK eq_refl) as [SZ DJ].
    unfold stmt_assemble in B.
    destruct (stmt_bytes a (module_ctx m (ln_scopes l) ext) (ln_stmt l)) as [[b|]| | |] eqn:SB; try discriminate B.
    + pose proof (stmt_bytes_size _ _ _ _ SB) as [L _]. exists (a, b). cbn [fst snd].
      unfold sink_write in B. destruct (sk ws (a, b)) as [[]| | |] eqn:SK; try discriminate B. injection B as <-.
      assert (T : forall x, In x (touched (a, b)) <-> claimed a (stmt_size (ln_stmt l)) x).
      { intros x. rewrite touched_in. cbn [fst snd]. rewrite L. reflexivity. }
      split; [reflexivity|]. split; [reflexivity|]. split; [repeat split; cbn [fst snd]; eauto; apply A24|].
      split; [intros x; rewrite CV, T; reflexivity|]. split; [lia|]. intros x X. apply DJ, T, X.
    + pose proof (stmt_bytes_size _ _ _ _ SB) as X. cbn beta iota in X. lia.
  - assert (G : forall f, (forall m, same_code m (f m) /\ md_owned (f m) = md_owned m) -> m' = f m -> ws' = ws ->
                same_code m m' /\ canonical (md_owned m') /\ ws' = ws /\ md_owned m' = md_owned m).
    { intros f F -> ->. destruct (F m) as [F1 F2]. rewrite F2. auto. }
    destruct (ln_stmt l) as [i|d]; [injection H as <- <-; apply (G (fun m => m)); auto; intros; split; [apply same_code_refl|reflexivity]|].
    assert (R : forall a m, same_code m (if rc_is_default (d_ret d) then m else md_with_rets (om_set a (d_ret d) (md_rets m)) m) /\
                md_owned (if rc_is_default (d_ret d) then m else md_with_rets (om_set a (d_ret d) (md_rets m)) m) = md_owned m).
    { intros a m0. destruct (rc_is_default (d_ret d)); split; try reflexivity; repeat split. }
    destruct (d_name d); try (injection H as <- <-; apply (G (fun m => m)); auto; intros; split; [apply same_code_refl|reflexivity]).
    + destruct (ln_value l) as [v|]; [|discriminate H]. injection H as <- H. bok H as a A. injection H as <-.
      apply (G _ (R a)); reflexivity.
    + injection H as <- H. bok H as v V. bok H as a A. injection H as <-.
      refine (G (fun m => if rc_is_default (d_ret d) then md_with_targets (om_merge flags_merge a (d_flags d) (md_targets m)) m
        else md_with_rets (om_set a (d_ret d) (md_rets m)) (md_with_targets (om_merge flags_merge a (d_flags d) (md_targets m)) m)) _ eq_refl eq_refl).
      intros m0. destruct (rc_is_default (d_ret d)); split; try reflexivity; repeat split.
Qed.

Lemma far_target_code : forall l i m m', record_far_target l i m = Ok m' -> same_code m m' /\ md_owned m' = md_owned m.
Proof.
  intros l i m m' H. unfold record_far_target in H. destruct (ln_value l) as [v|]; [|discriminate H].
  bok H as a A. bok H as t T. destruct t as [t|]; injection H as <-; split; try reflexivity; repeat split.
Qed.

Lemma line_write_code : forall ext m m' l w, same_code m m' -> line_write ext m' l w -> line_write ext m l w.
Proof. intros ext m m' l w S (A & B & C & D). rewrite (same_code_ctx _ _ _ _ S) in C. repeat split; auto; apply B. Qed.

Lemma nodup_flat_app : forall (ws : list write) w, NoDup (flat_map touched ws) -> NoDup (touched w) ->
  (forall x, In x (touched w) -> ~ In x (flat_map touched ws)) -> NoDup (flat_map touched (ws ++ [w])).
Proof.
  intros ws w N W D. rewrite flat_map_app. cbn. rewrite app_nil_r. apply nodup_app_iff. split; [exact N|]. split; [exact W|].
  intros x A B. exact (D x B A).
Qed.

Lemma assemble_lines_spec : forall sk ext ls ws m ws' m', canonical (md_owned m) ->
  assemble_lines sk ext ls ws m = (ws', Ok m') ->
  exists rs, ws' = ws ++ rs /\ Forall2 (line_write ext m) (filter has_bytes ls) rs /\
    same_code m m' /\ canonical (md_owned m') /\
    (forall x, covers (md_owned m') x <-> covers (md_owned m) x \/ In x (flat_map touched rs)) /\
    NoDup (flat_map touched rs) /\ (forall x, In x (flat_map touched rs) -> ~ covers (md_owned m) x).
Proof.
  induction ls as [|l ls IH]; intros ws m ws' m' C H; cbn [assemble_lines] in H.
  - injection H as <- <-. exists []. rewrite app_nil_r. split; [reflexivity|]. split; [constructor|].
    split; [apply same_code_refl|]. split; [exact C|]. cbn. split; [tauto|]. split; [constructor|tauto].
  - apply wbind_ok in H. destruct H as (ws1 & m1 & A & H). apply wbind_ok in H. destruct H as (ws2 & m2 & B & H).
    injection B as <- B. destruct (line_assemble_spec _ _ _ _ _ _ _ C A) as (S1 & C1 & W).
    assert (S2 : same_code m1 m2 /\ md_owned m2 = md_owned m1).
    { destruct (ln_stmt l); [eapply far_target_code; exact B|injection B as <-; split; [apply same_code_refl|reflexivity]]. }
    destruct S2 as [S2 O2]. rewrite <- O2 in C1.
    destruct (IH _ _ _ _ C1 H) as (rs & -> & F & S3 & C3 & CV & ND & DJ).
    assert (S12 : same_code m m2) by (eapply same_code_trans; eassumption).
    assert (F' : Forall2 (line_write ext m) (filter has_bytes ls) rs).
    { eapply Forall2_impl'; [|exact F]. intros x y. apply line_write_code. exact S12. }
    assert (S13 : same_code m m') by (eapply same_code_trans; eassumption).
    cbn [filter]. destruct (has_bytes l).
    + destruct W as (w & -> & SK & LW & CW & LN & DW). exists (w :: rs). rewrite <- app_assoc. split; [reflexivity|].
      split; [constructor; assumption|]. split; [exact S13|]. split; [exact C3|].
      assert (CV' : forall x, covers (md_owned m2) x <-> covers (md_owned m) x \/ In x (touched w)) by (rewrite O2; exact CW).
      split; [|split].
      * intros x. rewrite CV, CV'. cbn [flat_map]. rewrite in_app_iff. tauto.
      * cbn [flat_map]. apply nodup_app_iff. split; [apply touched_nodup; exact LN|]. split; [exact ND|].
        intros x X Y. apply (DJ x Y). apply CV'. right. exact X.
      * intros x. cbn [flat_map]. rewrite in_app_iff. intros [X|X]; [apply DW; exact X|].
        intros Y. apply (DJ x X). apply CV'. left. exact Y.
    + destruct W as [-> W]. exists rs. split; [reflexivity|]. split; [exact F'|]. split; [exact S13|]. split; [exact C3|].
      rewrite <- W, <- O2. auto.
Qed.
