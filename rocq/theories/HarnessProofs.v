(** Proofs about the test harness. *)
From Coq Require Import Permutation.
From Verif Require Import Base ModelNumeric ModelAddress ModelMap ModelFile ModelModule ModelAssembler ModelHarness.
From Verif Require Import SpecArith SpecSink SpecHarness SpecAssemble ArithProofs AssembleProofs SinkProofs ProgramProofs MainToolProofs.
Open Scope list_scope.
Open Scope Z_scope.

(** ** Maps without sortedness *)
Lemma find_none : forall A k (m : omap A), om_find k m = None <-> ~ In k (map fst m).
Proof.
  intros A k m. induction m as [|[j v] m IH]; cbn [om_find map fst In]; [tauto|].
  destruct (Z.eqb_spec j k) as [->|N]; [split; [discriminate|intros H; destruct H; left; reflexivity]|].
  rewrite IH. split; intros H; [intros [X|X]; [exact (N X)|exact (H X)]|intros X; apply H; right; exact X].
Qed.
Lemma set_perm : forall A k (v : A) m, om_find k m = None -> Permutation (om_set k v m) ((k, v) :: m).
Proof.
  intros A k v m. induction m as [|[j w] m IH]; intros H; cbn [om_set]; [reflexivity|]. cbn [om_find] in H.
  destruct (Z.eqb_spec j k) as [->|N]; [discriminate H|]. destruct (j <? k); [|reflexivity].
  rewrite (IH H). apply perm_swap.
Qed.
Lemma erase_perm : forall A k (v : A) m, om_find k m = Some v -> Permutation m ((k, v) :: om_erase k m).
Proof.
  intros A k v m. induction m as [|[j w] m IH]; intros H; cbn [om_find om_erase] in *; [discriminate H|].
  destruct (Z.eqb_spec j k) as [->|N]; [injection H as ->; reflexivity|]. rewrite (IH H) at 1. apply perm_swap.
Qed.
Lemma find_in : forall A k (v : A) m, NoDup (map fst m) -> In (k, v) m -> om_find k m = Some v.
Proof.
  intros A k v m. induction m as [|[j w] m IH]; intros N H; [destruct H|]. cbn [map fst] in N. inversion N as [|? ? NI N']; subst.
  cbn [om_find]. destruct H as [H|H].
  - injection H as -> ->. rewrite Z.eqb_refl. reflexivity.
  - destruct (Z.eqb_spec j k) as [->|NE]; [|exact (IH N' H)]. destruct NI. exact (in_map fst _ _ H).
Qed.
Lemma keys_perm : forall A (m n : omap A), Permutation m n -> NoDup (map fst m) -> NoDup (map fst n).
Proof. intros A m n P N. eapply Permutation_NoDup; [apply Permutation_map; exact P|exact N]. Qed.

Lemma nodup_front : forall A (l r : list A), NoDup (l ++ r) -> NoDup l.
Proof.
  intros A l r. induction l as [|x l IH]; intros N; [constructor|]. cbn [app] in N. inversion N as [|? ? NI N']; subst.
  constructor; [intros X; apply NI, in_or_app; left; exact X|exact (IH N')].
Qed.

(** ** Where bytes go *)
Lemma wrapped_any : forall a off, add_wrapped a off = same_bank_plus (a mod 2 ^ 24) off.
Proof.
  intros a off. rewrite <- (add_wrapped_spec (a mod 2 ^ 24)) by (unfold addr24; apply Z.mod_pos_bound; lia).
  unfold add_wrapped, to_uint32. f_equal.
  - change (2 ^ 24) with (2 ^ 24). rewrite <- Z.land_ones by lia. rewrite <- Z.land_assoc. reflexivity.
  - change 0xffff with (Z.ones 16). rewrite !Z.land_ones by lia.
    rewrite <- !Znumtheory.Zmod_div_mod by (try lia; exists (2 ^ 16); reflexivity).
    rewrite Z.add_mod by lia. rewrite (Z.add_mod (a mod 2 ^ 24)) by lia. do 2 f_equal.
    rewrite <- Znumtheory.Zmod_div_mod by (try lia; exists (2 ^ 8); reflexivity). reflexivity.
Qed.

Fixpoint lay (a i : Z) (data : list Z) : list (Z * Z) :=
  match data with [] => [] | b :: d => (add_wrapped a i, b) :: lay a (i + 1) d end.
Lemma lay_at : forall a data n, lay a (Z.of_nat n) data = combine (map (fun k => same_bank_plus (a mod 2 ^ 24) (Z.of_nat k)) (seq n (List.length data))) data.
Proof.
  intros a data. induction data as [|b d IH]; intros n; cbn [lay List.length seq map combine]; [reflexivity|].
  rewrite wrapped_any. f_equal. rewrite <- IH. f_equal. lia.
Qed.
Lemma lay_out : forall ds, laid_out ds = flat_map (fun d => lay (fst d) 0 (snd d)) ds.
Proof.
  intros ds. unfold laid_out. apply flat_map_ext. intros [a l]. cbn [fst snd]. symmetry. exact (lay_at a l 0).
Qed.
Lemma laid_app : forall x y, laid_out (x ++ y) = laid_out x ++ laid_out y.
Proof. intros. apply flat_map_app. Qed.

(** ** What the sink has received *)
Definition keys (m : list (Z * Z)) : list Z := map fst m.
Lemma receive_spec : forall data m a i, NoDup (keys m) ->
  match receive m a i data with
  | Ok m' => NoDup (keys (m ++ lay a i data)) /\ Permutation m' (m ++ lay a i data)
  | Err e => e = E_sink /\ ~ NoDup (keys (m ++ lay a i data))
  | _ => False
  end.
Proof.
  induction data as [|b d IH]; intros m a i N; cbn [receive lay].
  - rewrite app_nil_r. split; [exact N|reflexivity].
  - cbv zeta. unfold om_mem. destruct (om_find (add_wrapped a i) m) as [c|] eqn:F.
    + split; [reflexivity|]. intros X. unfold keys in X. rewrite map_app in X. cbn [map fst] in X.
      apply NoDup_remove_2 in X. apply X, in_or_app. left.
      destruct (in_dec Z.eq_dec (add_wrapped a i) (map fst m)) as [Y|Y]; [exact Y|]. apply find_none in Y. rewrite Y in F. discriminate F.
    + pose proof (set_perm _ _ b _ F) as P.
      assert (N1 : NoDup (keys (om_set (add_wrapped a i) b m))).
      { apply (keys_perm _ ((add_wrapped a i, b) :: m)); [symmetry; exact P|]. constructor; [apply find_none; exact F|exact N]. }
      assert (Q : Permutation (om_set (add_wrapped a i) b m ++ lay a (i + 1) d) (m ++ (add_wrapped a i, b) :: lay a (i + 1) d)).
      { rewrite P. apply (Permutation_middle m). }
      specialize (IH (om_set (add_wrapped a i) b m) a (i + 1) N1). destruct (receive _ a (i + 1) d) as [m'|e| |].
      * destruct IH as [A B]. split; [exact (keys_perm _ _ _ Q A)|rewrite B; exact Q].
      * destruct IH as [A B]. split; [exact A|]. intros X. apply B. apply (keys_perm _ _ _ (Permutation_sym Q) X).
      * exact IH.
      * exact IH.
Qed.
Lemma receive_all_spec : forall ws m, NoDup (keys m) ->
  match receive_all m ws with
  | Ok m' => NoDup (keys (m ++ laid_out ws)) /\ Permutation m' (m ++ laid_out ws)
  | Err e => e = E_sink /\ ~ NoDup (keys (m ++ laid_out ws))
  | _ => False
  end.
Proof.
  induction ws as [|w ws IH]; intros m N; cbn [receive_all].
  - cbn. rewrite app_nil_r. split; [exact N|reflexivity].
  - rewrite lay_out. cbn [flat_map]. rewrite <- lay_out, app_assoc.
    pose proof (receive_spec (snd w) m (fst w) 0 N) as R. destruct (receive m (fst w) 0 (snd w)) as [m1|e| |]; cbn [bind]; try destruct R.
    + assert (N1 : NoDup (keys m1)) by (apply (keys_perm _ (m ++ lay (fst w) 0 (snd w))); [symmetry; assumption|assumption]).
      assert (Q : Permutation (m1 ++ laid_out ws) ((m ++ lay (fst w) 0 (snd w)) ++ laid_out ws)) by (apply Permutation_app_tail; assumption).
      specialize (IH m1 N1). destruct (receive_all m1 ws) as [m'|e| |].
      * destruct IH as [A B]. split; [exact (keys_perm _ _ _ Q A)|rewrite B; exact Q].
      * destruct IH as [A B]. split; [exact A|]. intros X. apply B. apply (keys_perm _ _ _ (Permutation_sym Q) X).
      * exact IH.
      * exact IH.
    + split; [assumption|]. intros X. unfold keys in X. rewrite map_app in X. apply nodup_front in X. contradiction.
Qed.

(** The sink takes writes as long as no byte comes twice. *)
Lemma test_sink_spec : forall ws w, apart ws ->
  (test_sink ws w = Ok tt /\ apart (ws ++ [w])) \/ (test_sink ws w = Err E_sink /\ ~ apart (ws ++ [w])).
Proof.
  intros ws w A. unfold test_sink.
  pose proof (receive_all_spec ws [] (NoDup_nil _)) as R. cbn [app] in R.
  destruct (receive_all [] ws) as [m|e| |]; cbn [bind]; try destruct R; [|contradiction].
  assert (N1 : NoDup (keys m)) by (apply (keys_perm _ (laid_out ws)); [symmetry; assumption|assumption]).
  assert (L : laid_out (ws ++ [w]) = laid_out ws ++ lay (fst w) 0 (snd w)).
  { rewrite laid_app. f_equal. rewrite lay_out. cbn [flat_map]. apply app_nil_r. }
  assert (Q : Permutation (m ++ lay (fst w) 0 (snd w)) (laid_out (ws ++ [w]))) by (rewrite L; apply Permutation_app_tail; assumption).
  pose proof (receive_spec (snd w) m (fst w) 0 N1) as S. destruct (receive m (fst w) 0 (snd w)) as [m'|e| |]; cbn [bind]; try destruct S.
  - left. split; [reflexivity|]. apply (keys_perm _ _ _ Q). assumption.
  - right. subst e. split; [reflexivity|]. intros X. apply (keys_perm _ _ _ (Permutation_sym Q)) in X. contradiction.
Qed.
Lemma apart_front : forall x y, apart (x ++ y) -> apart x.
Proof. intros x y H. unfold apart in *. rewrite laid_app, map_app in H. apply nodup_front in H. exact H. Qed.
Lemma offered : forall todo done, apart done ->
  (apart (done ++ todo) -> offer test_sink done todo = (done ++ todo, Ok tt)) /\
  (~ apart (done ++ todo) -> exists front w back, todo = front ++ w :: back /\ apart (done ++ front) /\ ~ apart (done ++ front ++ [w]) /\
     offer test_sink done todo = (done ++ front, Err E_sink)).
Proof.
  induction todo as [|w todo IH]; intros done A; cbn [offer].
  - rewrite app_nil_r. split; [reflexivity|contradiction].
  - destruct (test_sink_spec done w A) as [[E B]|[E B]]; rewrite E.
    + destruct (IH (done ++ [w]) B) as [I1 I2]. rewrite <- app_assoc in I1, I2. cbn [app] in I1, I2. split; [exact I1|]. intros X.
      destruct (I2 X) as (front & v & back & -> & F & G & H). exists (w :: front), v, back. rewrite <- app_assoc in F, G, H. auto.
    + split; [intros X; destruct B; apply (apart_front _ todo); rewrite <- app_assoc; exact X|]. intros _. exists [], w, todo.
      rewrite app_nil_r. auto.
Qed.

(** ** Comparing with what was expected *)
Lemma check_bytes_spec : forall bytes m a i, NoDup (keys m) ->
  match check_bytes m a i bytes with
  | Ok m' => Permutation m (lay a i bytes ++ m') /\ NoDup (keys m')
  | Err e => e = E_mismatch /\ forall r, ~ Permutation m (lay a i bytes ++ r)
  | _ => False
  end.
Proof.
  induction bytes as [|b d IH]; intros m a i N; cbn [check_bytes lay].
  - split; [reflexivity|exact N].
  - cbv zeta. destruct (om_find (add_wrapped a i) m) as [c|] eqn:F.
    + pose proof (erase_perm _ _ _ _ F) as P. destruct (Z.eqb_spec c b) as [->|NE]; cbn [negb].
      * assert (N1 : NoDup (keys (om_erase (add_wrapped a i) m))).
        { pose proof (keys_perm _ _ _ P N) as X. inversion X; assumption. }
        specialize (IH (om_erase (add_wrapped a i) m) a (i + 1) N1). destruct (check_bytes _ a (i + 1) d) as [m'|e| |].
        -- destruct IH as [A B]. split; [|exact B]. rewrite P at 1. cbn [app]. constructor. exact A.
        -- destruct IH as [A B]. split; [exact A|]. intros r X. apply (B r). apply (Permutation_cons_inv (a := (add_wrapped a i, b))).
           rewrite <- P. exact X.
        -- exact IH.
        -- exact IH.
      * split; [reflexivity|]. intros r X. assert (Y : In (add_wrapped a i, b) m) by (rewrite X; left; reflexivity).
        apply (find_in _ _ _ _ N) in Y. rewrite Y in F. injection F as F. exact (NE (eq_sym F)).
    + split; [reflexivity|]. intros r X. assert (Y : In (add_wrapped a i, b) m) by (rewrite X; left; reflexivity).
      apply (find_in _ _ _ _ N) in Y. rewrite Y in F. discriminate F.
Qed.
Definition int32 (v : Z) : Prop := - 2 ^ 31 <= v < 2 ^ 31.
Lemma location_ok : forall v, int32 v -> (mk_address v = Ok v /\ 0 <= v <= 2 ^ 24) \/ (mk_address v = UB UB_assert /\ ~ 0 <= v <= 2 ^ 24).
Proof.
  intros v V. unfold int32 in V. unfold mk_address, to_uint32. change (2 ^ 24) with 16777216. change (2 ^ 31) with 2147483648 in V.
  change (2 ^ 32) with 4294967296.
  destruct (Z_lt_ge_dec v 0) as [L|L].
  - right. replace (v mod 4294967296) with (v + 4294967296) by (apply (Z.mod_unique_pos _ _ (-1)); lia).
    destruct (Z.leb_spec (v + 4294967296) 16777216); [lia|]. split; [reflexivity|lia].
  - rewrite Z.mod_small by lia. destruct (Z.leb_spec v 16777216); [left|right]; split; try reflexivity; lia.
Qed.
Lemma check_entries_spec : forall es m, NoDup (keys m) -> Forall (fun e => int32 (fst e)) es ->
  match check_entries m es with
  | Ok m' => in_memory es /\ Permutation m (laid_out es ++ m')
  | Err e => e = E_mismatch /\ forall r, ~ Permutation m (laid_out es ++ r)
  | UB u => u = UB_assert /\ ~ in_memory es
  | OutOfFuel => False
  end.
Proof.
  induction es as [|e es IH]; intros m N I; cbn [check_entries].
  - split; [constructor|reflexivity].
  - inversion I as [|? ? I1 I2]; subst. rewrite lay_out. cbn [flat_map]. rewrite <- lay_out.
    destruct (location_ok _ I1) as [[-> R]|[-> R]]; cbn [bind].
    2: { split; [reflexivity|]. intros X. inversion X; contradiction. }
    pose proof (check_bytes_spec (snd e) m (fst e) 0 N) as C. destruct (check_bytes m (fst e) 0 (snd e)) as [m1|x| |]; cbn [bind]; try destruct C as [C1 C2].
    + specialize (IH m1 C2 I2). destruct (check_entries m1 es) as [m'|x|u|].
      * destruct IH as [A B]. split; [constructor; assumption|]. rewrite <- app_assoc, <- B. exact C1.
      * destruct IH as [A B]. split; [exact A|]. intros r X. apply (B r). rewrite <- app_assoc in X.
        apply (Permutation_app_inv_l (lay (fst e) 0 (snd e))). rewrite <- C1. exact X.
      * destruct IH as [A B]. split; [exact A|]. intros X. inversion X; contradiction.
      * exact IH.
    + split; [exact C1|]. intros r X. rewrite <- app_assoc in X. exact (C2 _ X).
    + destruct C.
    + exact C.
Qed.
Lemma check_spec : forall es m, NoDup (keys m) -> Forall (fun e => int32 (fst e)) es ->
  match check m es with
  | Ok _ => in_memory es /\ Permutation m (laid_out es)
  | Err e => e = E_mismatch /\ ~ Permutation m (laid_out es)
  | UB u => u = UB_assert /\ ~ in_memory es
  | OutOfFuel => False
  end.
Proof.
  intros es m N I. unfold check. pose proof (check_entries_spec es m N I) as C. destruct (check_entries m es) as [m'|e|u|]; cbn [bind].
  - destruct C as [A B]. destruct m' as [|x m']; [rewrite app_nil_r in B; auto|]. split; [reflexivity|]. intros X. rewrite X in B.
    apply Permutation_length in B. rewrite app_length in B. cbn [List.length] in B. lia.
  - destruct C as [A B]. split; [exact A|]. intros X. apply (B []). rewrite app_nil_r. exact X.
  - exact C.
  - exact C.
Qed.

(** ** Assembling into the test sink *)
Lemma assemble_tested : forall fuel files ws r, assemble fuel takes_all files = (ws, r) ->
  (apart ws -> assemble fuel test_sink files = (ws, r)) /\
  (~ apart ws -> exists front w back, ws = front ++ w :: back /\ apart front /\ ~ apart (front ++ [w]) /\ assemble fuel test_sink files = (front, Err E_sink)).
Proof.
  intros fuel files ws r H. rewrite (sink_only_ends fuel test_sink files ws r H).
  destruct (offered ws (@nil write) (NoDup_nil _)) as [O1 O2]. change (@nil (Z * list Z)) with (@nil write) in *. split.
  - intros A. cbn [app] in O1. rewrite (O1 A). reflexivity.
  - intros A. destruct (O2 A) as (front & w & back & E & F & G & O). cbn [app] in F, G, O. exists front, w, back.
    split; [exact E|]. split; [exact F|]. split; [exact G|]. rewrite O. reflexivity.
Qed.
Lemma apart_dec : forall ws, {apart ws} + {~ apart ws}.
Proof. intros ws. unfold apart. apply ListDec.NoDup_dec. exact Z.eq_dec. Qed.
Lemma places_touched : forall ws, map fst (laid_out ws) = map (fun x => x mod 2 ^ 24) (flat_map touched ws).
Proof.
  induction ws as [|[a l] ws IH]; [reflexivity|]. unfold laid_out in *. cbn [flat_map fst snd]. rewrite !map_app, IH. f_equal.
  unfold touched, spread. cbn [fst snd]. generalize 0%nat.
  assert (P : forall n (l : list Z), map fst (combine (map (fun k => same_bank_plus (a mod 2 ^ 24) (Z.of_nat k)) (seq n (List.length l))) l) =
    map (fun k => same_bank_plus (a mod 2 ^ 24) (Z.of_nat k)) (seq n (List.length l))).
  { intros n l'. revert n. induction l' as [|b l' IHl]; intros n; cbn [List.length seq map combine fst]; [reflexivity|]. rewrite IHl. reflexivity. }
  intros n. rewrite P, map_map. apply map_ext. intros k. unfold same_bank_plus, bank_of, offset_of.
  change (2 ^ 24) with (2 ^ 16 * 2 ^ 8). rewrite Z.rem_mul_r by lia.
  pose proof (Z.mod_pos_bound a (2 ^ 16)) as M. pose proof (Z.mod_pos_bound (a mod 2 ^ 16 + Z.of_nat k) (2 ^ 16)) as M2.
  replace ((a mod 2 ^ 16 + 2 ^ 16 * ((a / 2 ^ 16) mod 2 ^ 8)) / 2 ^ 16) with ((a / 2 ^ 16) mod 2 ^ 8)
    by (rewrite Z.mul_comm, Z.div_add, (Z.div_small (a mod 2 ^ 16)) by lia; lia).
  replace ((a mod 2 ^ 16 + 2 ^ 16 * ((a / 2 ^ 16) mod 2 ^ 8)) mod 2 ^ 16) with (a mod 2 ^ 16)
    by (rewrite Z.mul_comm, Z.mod_add by lia; rewrite Z.mod_mod by lia; reflexivity).
  rewrite Z.rem_mul_r by lia. set (o := (a mod 2 ^ 16 + Z.of_nat k) mod 2 ^ 16) in *.
  rewrite (Z.add_comm (a / 2 ^ 16 * 2 ^ 16)), Z.mod_add, Z.div_add, (Z.div_small o), (Z.mod_small o) by lia. lia.
Qed.
Lemma NoDup_mod : forall l, (forall x, In x l -> addr24 x) -> NoDup l -> NoDup (map (fun x => x mod 2 ^ 24) l).
Proof.
  intros l H N. replace (map (fun x => x mod 2 ^ 24) l) with l; [exact N|]. rewrite <- (map_id l) at 1. apply map_ext_in.
  intros x X. symmetry. apply Z.mod_small. exact (H x X).
Qed.

Lemma success_apart : forall fuel sk files ws a, assemble fuel sk files = (ws, Ok a) -> apart ws.
Proof.
  intros fuel sk files ws a H. unfold apart. rewrite places_touched. apply NoDup_mod.
  - intros x X. apply in_flat_map in X. destruct X as (w & W & X). destruct (write_fits _ _ _ _ _ _ H W) as [F _].
    unfold touched in X. apply in_map_iff in X. destruct X as (k & <- & _). apply same_bank_plus_24. exact F.
  - destruct (program_spec _ _ _ _ _ H) as (ms0 & ms1 & order & wss & _ & _ & _ & _ & _ & _ & _ & N & _). exact N.
Qed.
Lemma sink_same : forall fuel files ws a, assemble fuel test_sink files = (ws, Ok a) <-> assemble fuel takes_all files = (ws, Ok a).
Proof.
  intros fuel files ws a. split; intros H.
  - destruct (assemble fuel takes_all files) as [ws' r] eqn:T. destruct (assemble_tested _ _ _ _ T) as [A B].
    destruct (apart_dec ws') as [D|D]; [rewrite (A D) in H; exact H|]. destruct (B D) as (f & w & b & _ & _ & _ & E). rewrite E in H. discriminate H.
  - exact (proj1 (assemble_tested _ _ _ _ H) (success_apart _ _ _ _ _ H)).
Qed.

Lemma expected_outcome : forall fuel contents es ws a, Forall (fun e => int32 (fst e)) es ->
  assemble fuel takes_all (map fake_file contents) = (ws, Ok a) ->
  match expect_assembly fuel contents es with
  | Ok true => in_memory es /\ Permutation (laid_out ws) (laid_out es)
  | Ok false => ~ Permutation (laid_out ws) (laid_out es)
  | UB u => u = UB_assert /\ ~ in_memory es
  | _ => False
  end.
Proof.
  intros fuel contents es ws a I H. unfold expect_assembly. rewrite (proj2 (sink_same _ _ _ _) H).
  pose proof (receive_all_spec ws [] (NoDup_nil _)) as R. cbn [app] in R.
  destruct (receive_all [] ws) as [m|e| |]; cbn [bind]; try destruct R as [R1 R2].
  - assert (N1 : NoDup (keys m)) by (apply (keys_perm _ (laid_out ws)); [symmetry; exact R2|exact R1]).
    pose proof (check_spec es m N1 I) as C. destruct (check m es) as [[]|e|u|].
    + destruct C as [C1 C2]. split; [exact C1|]. rewrite <- R2. exact C2.
    + intros X. apply (proj2 C). rewrite R2. exact X.
    + exact C.
    + exact C.
  - destruct R2. exact (success_apart _ _ _ _ _ H).
  - destruct R.
  - destruct R.
Qed.
Lemma expected_failure : forall fuel contents es, (forall ws a, assemble fuel takes_all (map fake_file contents) <> (ws, Ok a)) ->
  expect_assembly fuel contents es <> Ok true.
Proof.
  intros fuel contents es H X. unfold expect_assembly in X. destruct (assemble fuel test_sink (map fake_file contents)) as [ws [a|e|u|]] eqn:T; try discriminate X.
  apply sink_same in T. exact (H _ _ T).
Qed.
Lemma expect_passes : forall fuel contents es, Forall (fun e => int32 (fst e)) es ->
  (expect_assembly fuel contents es = Ok true <->
   exists ws a, assemble fuel takes_all (map fake_file contents) = (ws, Ok a) /\ in_memory es /\ Permutation (laid_out ws) (laid_out es)).
Proof.
  intros fuel contents es I. split.
  - intros H. destruct (assemble fuel takes_all (map fake_file contents)) as [ws [a|e|u|]] eqn:T.
    2-4: exfalso; refine (expected_failure fuel contents es _ H); intros ws' a' X; rewrite T in X; discriminate X.
    exists ws, a. split; [reflexivity|]. pose proof (expected_outcome _ _ es _ _ I T) as E. rewrite H in E. exact E.
  - intros (ws & a & T & M & P). pose proof (expected_outcome _ _ es _ _ I T) as E. destruct (expect_assembly fuel contents es) as [[]|e|u|].
    + reflexivity.
    + destruct (E P).
    + destruct E.
    + destruct (proj2 E M).
    + destruct E.
Qed.
Lemma expect_error_passes : forall fuel says contents ws r, assemble fuel takes_all (map fake_file contents) = (ws, r) ->
  (expect_error fuel says contents = Ok true <->
   (apart ws /\ exists e, r = Err e /\ says e = true) \/ (~ apart ws /\ says E_sink = true)).
Proof.
  intros fuel says contents ws r H. destruct (assemble_tested _ _ _ _ H) as [A B]. unfold expect_error. destruct (apart_dec ws) as [D|D].
  - rewrite (A D). split.
    + intros X. left. split; [exact D|]. destruct r as [a|e|u|]; try discriminate X. exists e. injection X as X. auto.
    + intros [[_ (e & -> & S)]|[N _]]; [rewrite S; reflexivity|contradiction].
  - destruct (B D) as (f & w & b & _ & _ & _ & ->). split.
    + intros X. injection X as X. auto.
    + intros [[N _]|[_ S]]; [contradiction|rewrite S; reflexivity].
Qed.
