(** Proofs about the order of assembly. *)
From Coq Require Import Permutation.
From Verif Require Import BaseProofs ModelExpr ModelMap ModelModule ModelAssembler MapProofs SpecOrder.
Open Scope list_scope.

Lemma nodup_app : forall A (l1 l2 : list A), NoDup l1 -> NoDup l2 ->
  (forall x, In x l1 -> ~ In x l2) -> NoDup (l1 ++ l2).
Proof.
  induction l1 as [|x l1 IH]; intros l2 N1 N2 D; cbn; [exact N2|]. inversion N1; subst. constructor.
  - rewrite in_app_iff. intros [I|I]; [contradiction|]. apply (D x); [left; reflexivity|exact I].
  - apply IH; auto. intros y I. apply D. right. exact I.
Qed.

Lemma fullid_eqb_eq : forall a b, fullid_eqb a b = true <-> a = b.
Proof.
  intros [[m|] n] [[m'|] n']; unfold fullid_eqb; cbn; rewrite ?andb_true_iff, ?String.eqb_eq;
    split; try congruence; try (intros [? ?]; congruence); try (intros E; injection E as <-; auto; fail);
    try (intros E; injection E as <- <-; auto).
Qed.
Lemma fullid_dec : forall a b : fullid, {a = b} + {a <> b}.
Proof. repeat decide equality. Qed.

Lemma assoc_id_in : forall A (l : list (fullid * A)) id v, assoc_id id l = Some v -> In (id, v) l.
Proof.
  induction l as [|[k w] l IH]; intros id v H; cbn in H; [discriminate|].
  destruct (fullid_eqb k id) eqn:E; [|right; auto]. apply fullid_eqb_eq in E. injection H as ->.
  subst. left. reflexivity.
Qed.
Lemma assoc_id_none : forall A (l : list (fullid * A)) id, assoc_id id l = None <-> ~ In id (map fst l).
Proof.
  induction l as [|[k w] l IH]; intros id; cbn; [tauto|].
  destruct (fullid_eqb k id) eqn:E.
  - apply fullid_eqb_eq in E. subst. split; [discriminate|]. intros H. exfalso. auto.
  - rewrite IH. assert (k <> id) by (intros ->; assert (fullid_eqb id id = true) by (apply fullid_eqb_eq; reflexivity); congruence).
    tauto.
Qed.
Lemma has_id_in : forall A (l : list (fullid * A)) id, has_id id l = true <-> In id (map fst l).
Proof.
  intros A l id. unfold has_id. destruct (assoc_id id l) eqn:E.
  - split; [intros _|reflexivity]. apply assoc_id_in in E. apply in_map_iff. exists (id, a). auto.
  - apply assoc_id_none in E. split; [discriminate|contradiction].
Qed.
Lemma assoc_id_nodup : forall A (l : list (fullid * A)) id v, NoDup (map fst l) ->
  In (id, v) l -> assoc_id id l = Some v.
Proof.
  intros A l id v N H. destruct (assoc_id id l) as [w|] eqn:E.
  - apply assoc_id_in in E. f_equal. clear -N H E. induction l as [|[k u] l IH]; [destruct H|].
    cbn in N. inversion N as [|? ? N1 N2]; subst. destruct H as [H|H], E as [E|E].
    + congruence.
    + injection H as -> ->. exfalso. apply N1. apply in_map_iff. exists (id, w). auto.
    + injection E as -> ->. exfalso. apply N1. apply in_map_iff. exists (id, v). auto.
    + auto.
  - apply assoc_id_none in E. exfalso. apply E. apply in_map_iff. exists (id, v). auto.
Qed.

Lemma exported_exports : forall m, exported_names m = exports m.
Proof. reflexivity. Qed.

(** ** Registering exports. *)
Lemma add_exports_spec : forall i ids names,
  NoDup (map fst names) ->
  match add_exports i ids names with
  | Ok names' => names' = names ++ map (fun id => (id, i)) ids /\ NoDup (map fst names')
  | Err e => e = E_duplicate /\ ~ NoDup (map fst names ++ ids)
  | _ => False
  end.
Proof.
  intros i. induction ids as [|id ids IH]; intros names N; cbn [add_exports].
  - rewrite app_nil_r. auto.
  - destruct (has_id id names) eqn:E.
    + split; [reflexivity|]. apply has_id_in in E. intros D.
      apply NoDup_remove_2 in D. apply D. apply in_or_app. auto.
    + assert (~ In id (map fst names)) by (intros I; apply has_id_in in I; congruence).
      assert (N' : NoDup (map fst (names ++ [(id, i)]))).
      { rewrite map_app. cbn. apply (Permutation_NoDup (Permutation_cons_append _ _)).
        constructor; assumption. }
      specialize (IH _ N'). destruct (add_exports i ids (names ++ [(id, i)])) as [names'|e|u|]; auto.
      * destruct IH as [-> D]. split; [|exact D]. rewrite <- app_assoc. reflexivity.
      * destruct IH as [-> D]. split; [reflexivity|]. intros D'. apply D.
        rewrite map_app, <- app_assoc. exact D'.
Qed.

(** ** Positions. *)
Definition at_ (ms : list module) (i : Z) : module := match znth ms i with Some m => m | None => empty_module end.
Definition indices (ms : list module) : list Z := map Z.of_nat (seq 0 (List.length ms)).

Lemma indices_in : forall ms i, In i (indices ms) <-> 0 <= i < zlen ms.
Proof.
  intros ms i. unfold indices. rewrite in_map_iff. split.
  - intros (n & <- & H). apply in_seq in H. unfold zlen. lia.
  - intros H. exists (Z.to_nat i). rewrite in_seq. unfold zlen in H. lia.
Qed.
Lemma indices_nodup : forall ms, NoDup (indices ms).
Proof. intros ms. unfold indices. apply FinFun.Injective_map_NoDup; [intros x y; lia|]. apply seq_NoDup. Qed.
Lemma indices_all : forall ms, map (at_ ms) (indices ms) = ms.
Proof.
  intros ms. apply znth_ext. intros i. rewrite znth_map. unfold indices. rewrite znth_map.
  destruct (znth ms i) as [m|] eqn:E.
  - pose proof (znth_some _ _ _ _ E) as R.
    assert (S : znth (seq 0 (List.length ms)) i = Some (Z.to_nat i)).
    { unfold znth. destruct (Z.ltb_spec i 0); [lia|]. unfold zlen in R.
      rewrite (nth_error_nth' _ 0%nat) by (rewrite seq_length; lia). rewrite seq_nth by lia. reflexivity. }
    rewrite S. cbn. unfold at_. rewrite Z2Nat.id by lia. rewrite E. reflexivity.
  - assert (S : znth (seq 0 (List.length ms)) i = None).
    { apply znth_none. apply znth_none in E. unfold zlen in *. rewrite seq_length. exact E. }
    rewrite S. reflexivity.
Qed.
Lemma at_in : forall ms i, 0 <= i < zlen ms -> In (at_ ms i) ms.
Proof.
  intros ms i H. rewrite <- (indices_all ms) at 2. apply in_map. apply indices_in. exact H.
Qed.
Lemma in_at : forall ms m, In m ms -> exists i, 0 <= i < zlen ms /\ at_ ms i = m.
Proof.
  intros ms m H. rewrite <- (indices_all ms) in H. apply in_map_iff in H. destruct H as (i & <- & H).
  exists i. split; [apply indices_in; exact H|reflexivity].
Qed.

(** Positions without repetition extend to all positions. *)
Lemma complete_positions : forall ms order, NoDup order -> (forall i, In i order -> 0 <= i < zlen ms) ->
  exists rest, Permutation (order ++ rest) (indices ms).
Proof.
  intros ms order N R. exists (filter (fun i => negb (existsb (Z.eqb i) order)) (indices ms)).
  assert (M : forall i, existsb (Z.eqb i) order = true <-> In i order).
  { intros i. rewrite existsb_exists. split.
    - intros (x & H & E). apply Z.eqb_eq in E. subst. exact H.
    - intros H. exists i. rewrite Z.eqb_refl. auto. }
  apply NoDup_Permutation.
  - apply nodup_app; [exact N|apply NoDup_filter, indices_nodup|]. intros i H H'. apply filter_In in H'. destruct H' as [_ H']. apply M in H. rewrite H in H'. discriminate.
  - apply indices_nodup.
  - intros i. rewrite in_app_iff, filter_In. split.
    + intros [H|[H _]]; [apply indices_in; auto|exact H].
    + intros H. destruct (existsb (Z.eqb i) order) eqn:E; [left; apply M; exact E|right; auto].
Qed.

(** ** The sweeps. *)
Definition names_of (ms : list module) (order : list Z) : list (fullid * Z) :=
  flat_map (fun i => map (fun id => (id, i)) (exports (at_ ms i))) order.

Lemma names_of_keys : forall ms order,
  map fst (names_of ms order) = flat_map exports (map (at_ ms) order).
Proof.
  intros ms. induction order as [|i order IH]; cbn; [reflexivity|].
  rewrite map_app, map_map. cbn. rewrite map_id. f_equal. exact IH.
Qed.
Lemma flat_map_perm : forall A B (f : A -> list B) l1 l2, Permutation l1 l2 ->
  Permutation (flat_map f l1) (flat_map f l2).
Proof.
  intros A B f l1 l2 P. induction P; cbn; eauto using Permutation_trans, Permutation_app_head.
  rewrite !app_assoc. apply Permutation_app_tail, Permutation_app_comm.
Qed.
Lemma unique_some : forall ms order, unique_exports ms -> NoDup order ->
  (forall i, In i order -> 0 <= i < zlen ms) -> NoDup (map fst (names_of ms order)).
Proof.
  intros ms order U N R. rewrite names_of_keys.
  destruct (complete_positions ms order N R) as [rest P].
  apply (Permutation_map (at_ ms)) in P. rewrite indices_all, map_app in P.
  apply (flat_map_perm _ _ exports) in P. rewrite flat_map_app in P. unfold unique_exports in U.
  apply (Permutation_NoDup (Permutation_sym P)) in U.
  clear -U. induction (flat_map exports (map (at_ ms) order)) as [|x l IH]; [constructor|].
  cbn in U. inversion U; subst. constructor; [|auto]. intros I. apply H1. apply in_or_app. auto.
Qed.

Lemma respects_snoc : forall l m, respects l ->
  (forall id, In id (md_deps m) -> exists m', In m' l /\ In id (exports m')) -> respects (l ++ [m]).
Proof.
  intros l m H D before m' after E. destruct (exists_last (l := m' :: after)) as (a & x & E').
  - discriminate.
  - rewrite E', app_assoc in E. apply app_inj_tail in E. destruct E as [E <-].
    destruct a as [|y a].
    + cbn in E'. injection E' as -> ->. rewrite app_nil_r in E. subst. exact D.
    + cbn in E'. injection E' as -> ->. apply (H before y a). exact E.
Qed.

Definition met (ms : list module) (names : list (fullid * Z)) (i : Z) : Prop :=
  forall id, In id (md_deps (at_ ms i)) -> In id (map fst names).

Definition ord_ok (ms : list module) (order : list Z) (names : list (fullid * Z)) : Prop :=
  NoDup order /\ (forall i, In i order -> 0 <= i < zlen ms) /\ names = names_of ms order /\
  NoDup (map fst names) /\ respects (map (at_ ms) order).

Lemma sweep_spec : forall ms suf pre order names found, ms = pre ++ suf -> ord_ok ms order names ->
  match order_sweep (zlen pre) suf order names found with
  | Ok (order', names', found') => ord_ok ms order' names' /\
      exists added, order' = order ++ added /\
        (added = [] -> found' = found /\ names' = names /\
           forall i, zlen pre <= i < zlen ms -> ~ In i order -> ~ met ms names i) /\
        (added <> [] -> found' = true)
  | Err e => e = E_duplicate /\ ~ unique_exports ms
  | _ => False
  end.
Proof.
  intros ms. induction suf as [|m suf IH]; intros pre order names found E O; cbn [order_sweep].
  - split; [exact O|]. exists []. rewrite app_nil_r. split; [reflexivity|]. split; [|congruence].
    intros _. repeat split. intros i H. rewrite E, app_nil_r in H. lia.
  - assert (E' : ms = (pre ++ [m]) ++ suf) by (rewrite <- app_assoc; exact E).
    assert (L : zlen (pre ++ [m]) = zlen pre + 1) by (rewrite zlen_app, zlen_cons, zlen_nil; lia).
    assert (A : at_ ms (zlen pre) = m) by (unfold at_; rewrite E, znth_mid; reflexivity).
    assert (R : 0 <= zlen pre < zlen ms).
    { rewrite E, zlen_app, zlen_cons. pose proof (zlen_nonneg _ pre). pose proof (zlen_nonneg _ suf). lia. }
    destruct (existsb (Z.eqb (zlen pre)) order) eqn:X.
    + apply existsb_exists in X. destruct X as (j & Hj & X). apply Z.eqb_eq in X. subst j.
      specialize (IH (pre ++ [m]) order names found E' O). rewrite L in IH.
      destruct (order_sweep (zlen pre + 1) suf order names found) as [[[o' n'] f']|e|u|]; auto.
      destruct IH as (O' & added & -> & H1 & H2). split; [exact O'|]. exists added.
      split; [reflexivity|]. split; [|exact H2]. intros Z0. destruct (H1 Z0) as (-> & -> & H3).
      repeat split. intros i Hi Ni. apply H3; [|exact Ni]. destruct (Z.eq_dec i (zlen pre)); [subst; contradiction|lia].
    + assert (NI : ~ In (zlen pre) order).
      { intros I. assert (existsb (Z.eqb (zlen pre)) order = true); [|congruence].
        apply existsb_exists. exists (zlen pre). rewrite Z.eqb_refl. auto. }
      destruct (forallb (fun d => has_id d names) (md_deps m)) eqn:D.
      * rewrite forallb_forall in D.
        destruct O as (O1 & O2 & O3 & O4 & O5).
        assert (N1 : NoDup (order ++ [zlen pre])).
        { apply nodup_app; [exact O1|constructor; [intros []|constructor]|]. intros x I [<-|[]]. contradiction. }
        assert (R1 : forall i, In i (order ++ [zlen pre]) -> 0 <= i < zlen ms).
        { intros i I. apply in_app_iff in I. destruct I as [I|[<-|[]]]; auto. }
        pose proof (add_exports_spec (zlen pre) (exported_names m) names O4) as AE.
        assert (NE : names_of ms (order ++ [zlen pre]) = names ++ map (fun id => (id, zlen pre)) (exports m)).
        { unfold names_of. rewrite flat_map_app. cbn. rewrite A, app_nil_r, O3. reflexivity. }
        destruct (add_exports (zlen pre) (exported_names m) names) as [names1|e|u|]; cbn [bind].
        2: { destruct AE as [-> ND]. split; [reflexivity|]. intros U. apply ND.
             pose proof (unique_some ms _ U N1 R1) as W. rewrite NE, map_app, map_map in W. cbn in W.
             rewrite map_id in W. exact W. }
        2: exact AE. 2: exact AE.
        destruct AE as [N2 N3]. rewrite exported_exports in N2.
        assert (O' : ord_ok ms (order ++ [zlen pre]) names1).
        { repeat split; auto; try (apply R1; assumption); [congruence|].
          rewrite map_app. cbn. rewrite A. apply respects_snoc; [exact O5|]. intros id I.
          specialize (D id I). apply has_id_in in D. rewrite O3, names_of_keys in D.
          apply in_flat_map in D. destruct D as (m' & D1 & D2). exists m'. auto. }
        specialize (IH (pre ++ [m]) _ _ true E' O'). rewrite L in IH.
        destruct (order_sweep (zlen pre + 1) suf (order ++ [zlen pre]) names1 true) as [[[o' n'] f']|e|u|]; auto.
        destruct IH as (O'' & added & -> & H1 & H2). split; [exact O''|]. exists (zlen pre :: added).
        split; [rewrite <- app_assoc; reflexivity|]. split; [discriminate|]. intros _.
        destruct added as [|y added]; [apply H1; reflexivity|apply H2; discriminate].
      * specialize (IH (pre ++ [m]) order names found E' O). rewrite L in IH.
        destruct (order_sweep (zlen pre + 1) suf order names found) as [[[o' n'] f']|e|u|]; auto.
        destruct IH as (O' & added & -> & H1 & H2). split; [exact O'|]. exists added.
        split; [reflexivity|]. split; [|exact H2]. intros Z0. destruct (H1 Z0) as (-> & -> & H3).
        repeat split. intros i Hi Ni. destruct (Z.eq_dec i (zlen pre)) as [->|]; [|apply H3; [lia|exact Ni]].
        intros M. unfold met in M. rewrite A in M.
        assert (forallb (fun d => has_id d names) (md_deps m) = true); [|congruence].
        apply forallb_forall. intros d I. apply has_id_in. auto.
Qed.

Lemma order_length : forall ms order names, ord_ok ms order names -> zlen order <= zlen ms.
Proof.
  intros ms order names (N & R & _). destruct (complete_positions ms order N R) as [rest P].
  apply Permutation_length in P. unfold indices in P. rewrite app_length, map_length, seq_length in P.
  unfold zlen. lia.
Qed.

Definition ends (ms : list module) (r : res (list Z * list (fullid * Z))) : Prop :=
  match r with
  | Ok (order, names) => ord_ok ms order names /\ zlen ms <= zlen order
  | Err E_duplicate => ~ unique_exports ms
  | Err E_cycle => exists order names, ord_ok ms order names /\
      (exists i, 0 <= i < zlen ms /\ ~ In i order) /\
      (forall i, 0 <= i < zlen ms -> ~ In i order -> ~ met ms names i)
  | _ => False
  end.

Lemma loop_spec : forall ms fuel order names, ord_ok ms order names ->
  zlen ms <= zlen order + Z.of_nat fuel -> ends ms (order_loop fuel ms order names).
Proof.
  intros ms. induction fuel as [|fuel IH]; intros order names O F; cbn [order_loop];
    destruct (Z.ltb_spec (zlen order) (zlen ms)) as [L|L]; try (split; [exact O|lia]); [lia|].
  pose proof (sweep_spec ms ms [] order names false eq_refl O) as S. change (zlen []) with 0 in S.
  destruct (order_sweep 0 ms order names false) as [[[o' n'] f']|e|u|]; cbn [bind]; try contradiction.
  - destruct S as (O' & added & -> & H1 & H2). destruct added as [|x added].
    + destruct (H1 eq_refl) as (-> & -> & H3). cbn. exists order, names. split; [exact O|]. split; [|exact H3].
      destruct O as (N & R & _). destruct (complete_positions ms order N R) as [[|i rest] P].
      * apply Permutation_length in P. unfold indices in P. rewrite app_nil_r, map_length, seq_length in P.
        unfold zlen in L. lia.
      * exists i. split.
        -- apply indices_in. apply (Permutation_in _ P). apply in_or_app. right. left. reflexivity.
        -- intros I. apply Permutation_sym in P. pose proof (Permutation_NoDup P (indices_nodup ms)) as D.
           apply NoDup_remove_2 in D. apply D. apply in_or_app. auto.
    + rewrite H2 by discriminate. apply IH; [exact O'|]. rewrite zlen_app, zlen_cons.
      pose proof (zlen_nonneg _ added). lia.
  - destruct S as [-> S]. exact S.
Qed.

Lemma order_ends : forall ms, ends ms (find_assembly_order ms).
Proof.
  intros ms. apply loop_spec; [|unfold zlen; cbn; lia].
  split; [constructor|]. split; [intros i []|]. split; [reflexivity|]. split; [constructor|].
  intros before m after E. destruct before; discriminate E.
Qed.

Lemma ok_perm : forall ms order names, ord_ok ms order names -> zlen ms <= zlen order ->
  Permutation (map (at_ ms) order) ms.
Proof.
  intros ms order names (N & R & _) L. destruct (complete_positions ms order N R) as [rest P].
  assert (rest = []).
  { apply Permutation_length in P. unfold indices in P. rewrite app_length, map_length, seq_length in P.
    unfold zlen in L. destruct rest; [reflexivity|]. cbn in P. lia. }
  subst. rewrite app_nil_r in P. apply (Permutation_map (at_ ms)) in P. rewrite indices_all in P. exact P.
Qed.

(** A stuck order contradicts orderability. *)
Lemma stuck_unorderable : forall ms order names, ord_ok ms order names ->
  (exists i, 0 <= i < zlen ms /\ ~ In i order) ->
  (forall i, 0 <= i < zlen ms -> ~ In i order -> ~ met ms names i) -> ~ orderable ms.
Proof.
  intros ms order names O (i0 & R0 & N0) S (l & P & RS).
  assert (K : forall before after, l = before ++ after ->
            forall i, 0 <= i < zlen ms -> In (at_ ms i) before -> In i order).
  { induction before as [|m before IH] using rev_ind; intros after E i R I; [destruct I|].
    rewrite <- app_assoc in E. cbn in E. specialize (IH _ E). apply in_app_iff in I.
    destruct I as [I|[I|[]]]; [eauto|]. subst m.
    destruct (in_dec Z.eq_dec i order) as [Y|Y]; [exact Y|]. exfalso. apply (S i R Y). intros id D.
    destruct (RS _ _ _ E id D) as (m' & B & X).
    assert (M' : In m' ms).
    { apply (Permutation_in _ P). rewrite E. apply in_or_app. auto. }
    apply in_at in M'. destruct M' as (j & Rj & <-).
    destruct O as (_ & _ & -> & _). rewrite names_of_keys. apply in_flat_map. exists (at_ ms j).
    split; [|exact X]. apply in_map. eauto. }
  apply N0. apply (K l []); [rewrite app_nil_r; reflexivity|exact R0|].
  apply (Permutation_in _ (Permutation_sym P)). apply at_in. exact R0.
Qed.

(** ** The theorems. *)
Lemma order_sound : forall ms order names, find_assembly_order ms = Ok (order, names) ->
  exists l, pick ms order l /\ Permutation l ms /\ NoDup order /\ respects l /\ unique_exports ms /\
    (forall id i, assoc_id id names = Some i <-> exists m, 0 <= i /\ nth_error ms (Z.to_nat i) = Some m /\ In id (exports m)).
Proof.
  intros ms order names H. pose proof (order_ends ms) as E. rewrite H in E. destruct E as [O L].
  pose proof (ok_perm _ _ _ O L) as P. destruct O as (N & R & NM & D & RS).
  exists (map (at_ ms) order). split; [|split; [exact P|split; [exact N|split; [exact RS|split]]]].
  - clear -R. induction order as [|i order IH]; cbn; constructor.
    + assert (Ri : 0 <= i < zlen ms) by (apply R; left; reflexivity). split; [lia|].
      destruct (znth_in_range _ ms i Ri) as [m M]. unfold at_. rewrite M. unfold znth in M.
      destruct (i <? 0); [discriminate|exact M].
    + apply IH. intros j I. apply R. right. exact I.
  - unfold unique_exports. rewrite NM, names_of_keys in D.
    apply (Permutation_NoDup (flat_map_perm _ _ exports _ _ P)). exact D.
  - intros id i. split.
    + intros A. apply assoc_id_in in A. rewrite NM in A. apply in_flat_map in A.
      destruct A as (j & J & A). apply in_map_iff in A. destruct A as (id' & E & A). injection E as -> ->.
      specialize (R _ J). exists (at_ ms i). split; [lia|]. split; [|exact A].
      destruct (znth_in_range _ ms i R) as [m M]. unfold at_. rewrite M. unfold znth in M.
      destruct (i <? 0); [discriminate|exact M].
    + intros (m & I & M & A). apply assoc_id_nodup; [exact D|]. rewrite NM. apply in_flat_map. exists i.
      assert (ZM : znth ms i = Some m) by (unfold znth; destruct (Z.ltb_spec i 0); [lia|exact M]).
      split.
      * pose proof (znth_some _ _ _ _ ZM) as Ri.
        destruct (complete_positions ms order N R) as [rest Q].
        assert (rest = []).
        { apply Permutation_length in Q. unfold indices in Q. rewrite app_length, map_length, seq_length in Q.
          unfold zlen in L. destruct rest; [reflexivity|]. cbn in Q. lia. }
        subst rest. rewrite app_nil_r in Q. apply (Permutation_in _ (Permutation_sym Q)). apply indices_in. exact Ri.
      * apply in_map_iff. exists id. unfold at_. rewrite ZM. auto.
Qed.

Lemma respects_orderable : forall ms order names, ord_ok ms order names -> zlen ms <= zlen order ->
  orderable ms.
Proof.
  intros ms order names O L. exists (map (at_ ms) order). split; [eapply ok_perm; eassumption|apply O].
Qed.

(** The outcome is decided by the set of modules. *)
Lemma order_exact : forall ms,
  ((exists order names, find_assembly_order ms = Ok (order, names)) <-> orderable ms /\ unique_exports ms) /\
  ((exists order names, find_assembly_order ms = Ok (order, names)) \/
   find_assembly_order ms = Err E_duplicate \/ find_assembly_order ms = Err E_cycle) /\
  (unique_exports ms -> ~ orderable ms -> find_assembly_order ms = Err E_cycle) /\
  (orderable ms -> ~ unique_exports ms -> find_assembly_order ms = Err E_duplicate).
Proof.
  intros ms. pose proof (order_ends ms) as E.
  destruct (find_assembly_order ms) as [[order names]|e|u|] eqn:F; try contradiction.
  - destruct (order_sound _ _ _ F) as (l & _ & P & _ & R & U & _).
    assert (OR : orderable ms) by (exists l; auto).
    repeat split; try tauto; eauto.
  - destruct e; cbn [ends] in E; try contradiction.
    + split; [split; [intros (o & n & X); discriminate X|tauto]|tauto].
    + destruct E as (o & n & O & S1 & S2). pose proof (stuck_unorderable _ _ _ O S1 S2) as NO.
      split; [split; [intros (o' & n' & X); discriminate X|tauto]|tauto].
Qed.

Lemma order_permutation : forall ms ms', Permutation ms ms' ->
  ((exists order names, find_assembly_order ms = Ok (order, names)) <->
   (exists order names, find_assembly_order ms' = Ok (order, names))).
Proof.
  assert (H : forall ms ms', Permutation ms ms' -> orderable ms /\ unique_exports ms ->
                             orderable ms' /\ unique_exports ms').
  { intros ms ms' P [(l & Q & R) U]. split.
    - exists l. split; [eapply Permutation_trans; eassumption|exact R].
    - apply (Permutation_NoDup (flat_map_perm _ _ exports _ _ P) U). }
  intros ms ms' P. rewrite (proj1 (order_exact ms)), (proj1 (order_exact ms')).
  split; apply H; [exact P|apply Permutation_sym; exact P].
Qed.
