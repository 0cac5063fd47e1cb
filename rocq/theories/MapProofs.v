(** Vectors indexed by integers and sorted maps. *)
From Coq Require Import Permutation Sorted.
From Verif Require Import BaseProofs ModelMap.

(** ** Vectors. *)
Lemma zlen_nonneg : forall A (l : list A), 0 <= zlen l.
Proof. intros. unfold zlen. lia. Qed.
Lemma zlen_app : forall A (l1 l2 : list A), zlen (l1 ++ l2) = zlen l1 + zlen l2.
Proof. intros. unfold zlen. rewrite app_length. lia. Qed.
Lemma zlen_cons : forall A (x : A) l, zlen (x :: l) = 1 + zlen l.
Proof. intros. unfold zlen. cbn [List.length]. lia. Qed.
Lemma zlen_nil : forall A, zlen (@nil A) = 0.
Proof. reflexivity. Qed.
Lemma zlen_map : forall A B (f : A -> B) l, zlen (map f l) = zlen l.
Proof. intros. unfold zlen. rewrite map_length. reflexivity. Qed.

Lemma znth_some : forall A (l : list A) i x, znth l i = Some x -> 0 <= i < zlen l.
Proof.
  intros A l i x H. unfold znth in H. destruct (Z.ltb_spec i 0); [discriminate|].
  assert (N : nth_error l (Z.to_nat i) <> None) by congruence.
  apply nth_error_Some in N. unfold zlen. lia.
Qed.
Lemma znth_in_range : forall A (l : list A) i, 0 <= i < zlen l -> exists x, znth l i = Some x.
Proof.
  intros A l i H. unfold znth. destruct (Z.ltb_spec i 0); [lia|].
  destruct (nth_error l (Z.to_nat i)) eqn:E; [eauto|]. apply nth_error_None in E. unfold zlen in H. lia.
Qed.
Lemma znth_none : forall A (l : list A) i, znth l i = None <-> ~ 0 <= i < zlen l.
Proof.
  intros A l i. split.
  - intros H R. destruct (znth_in_range _ _ _ R). congruence.
  - intros H. destruct (znth l i) eqn:E; [|reflexivity]. apply znth_some in E. contradiction.
Qed.
Lemma znth_in : forall A (l : list A) i x, znth l i = Some x -> In x l.
Proof.
  intros A l i x H. unfold znth in H. destruct (i <? 0); [discriminate|]. eapply nth_error_In. eassumption.
Qed.
Lemma in_znth : forall A (l : list A) x, In x l -> exists i, znth l i = Some x.
Proof.
  intros A l x H. apply In_nth_error in H. destruct H as [n H]. exists (Z.of_nat n). unfold znth.
  destruct (Z.ltb_spec (Z.of_nat n) 0); [lia|]. rewrite Nat2Z.id. exact H.
Qed.
Lemma znth_app1 : forall A (l1 l2 : list A) i, i < zlen l1 -> znth (l1 ++ l2) i = znth l1 i.
Proof.
  intros A l1 l2 i H. unfold znth. destruct (Z.ltb_spec i 0); [reflexivity|].
  apply nth_error_app1. unfold zlen in H. lia.
Qed.
Lemma znth_app2 : forall A (l1 l2 : list A) i, zlen l1 <= i -> znth (l1 ++ l2) i = znth l2 (i - zlen l1).
Proof.
  intros A l1 l2 i H. pose proof (zlen_nonneg _ l1). unfold znth. destruct (Z.ltb_spec i 0); [lia|].
  destruct (Z.ltb_spec (i - zlen l1) 0); [lia|]. rewrite nth_error_app2 by (unfold zlen in H; lia).
  f_equal. unfold zlen. lia.
Qed.
Lemma znth_mid : forall A (l1 l2 : list A) x, znth (l1 ++ x :: l2) (zlen l1) = Some x.
Proof. intros. rewrite znth_app2 by lia. rewrite Z.sub_diag. reflexivity. Qed.
Lemma znth_cons0 : forall A (x : A) l, znth (x :: l) 0 = Some x.
Proof. reflexivity. Qed.
Lemma znth_cons : forall A (x : A) l i, 0 < i -> znth (x :: l) i = znth l (i - 1).
Proof. intros A x l i H. exact (znth_app2 _ [x] l i ltac:(unfold zlen; cbn; lia)). Qed.
Lemma znth_split : forall A (l : list A) i x, znth l i = Some x ->
  exists l1 l2, l = l1 ++ x :: l2 /\ zlen l1 = i.
Proof.
  intros A l i x H. pose proof (znth_some _ _ _ _ H). unfold znth in H.
  destruct (Z.ltb_spec i 0); [lia|]. apply nth_error_split in H. destruct H as (l1 & l2 & -> & E).
  exists l1, l2. split; [reflexivity|]. unfold zlen. lia.
Qed.
Lemma znth_map : forall A B (f : A -> B) l i, znth (map f l) i = option_map f (znth l i).
Proof.
  intros. unfold znth. destruct (i <? 0); [reflexivity|]. apply nth_error_map.
Qed.
Lemma znth_ext : forall A (l1 l2 : list A), (forall i, znth l1 i = znth l2 i) -> l1 = l2.
Proof.
  induction l1 as [|x l1 IH]; intros [|y l2] H.
  - reflexivity.
  - specialize (H 0). discriminate.
  - specialize (H 0). discriminate.
  - pose proof (H 0) as E. cbn in E. injection E as ->. f_equal. apply IH. intros i.
    destruct (Z.ltb_spec i 0) as [L|L].
    + unfold znth. destruct (Z.ltb_spec i 0); [reflexivity|lia].
    + specialize (H (i + 1)). rewrite !znth_cons in H by lia. replace (i + 1 - 1) with i in H by lia.
      exact H.
Qed.

Lemma set_nth_length : forall A (l : list A) i x, List.length (set_nth i x l) = List.length l.
Proof. induction l as [|y l IH]; intros [|i] x; cbn; auto. Qed.
Lemma zlen_zset : forall A (l : list A) i x, zlen (zset i x l) = zlen l.
Proof. intros. unfold zset, zlen. destruct (i <? 0); [reflexivity|]. rewrite set_nth_length. reflexivity. Qed.
Lemma set_nth_same : forall A (l : list A) i x, (i < List.length l)%nat ->
  nth_error (set_nth i x l) i = Some x.
Proof. induction l as [|y l IH]; intros [|i] x H; cbn in *; try lia; auto; apply IH; lia. Qed.
Lemma set_nth_other : forall A (l : list A) i j x, i <> j ->
  nth_error (set_nth i x l) j = nth_error l j.
Proof.
  induction l as [|y l IH]; intros [|i] [|j] x H; cbn; auto; try congruence; apply IH; congruence.
Qed.
Lemma znth_zset_same : forall A (l : list A) i x, 0 <= i < zlen l -> znth (zset i x l) i = Some x.
Proof.
  intros A l i x H. unfold znth, zset. destruct (Z.ltb_spec i 0); [lia|]. apply set_nth_same.
  unfold zlen in H. lia.
Qed.
Lemma znth_zset_other : forall A (l : list A) i j x, i <> j -> znth (zset i x l) j = znth l j.
Proof.
  intros A l i j x H. unfold znth, zset. destruct (Z.ltb_spec j 0); [reflexivity|].
  destruct (Z.ltb_spec i 0); [reflexivity|]. apply set_nth_other. lia.
Qed.
Lemma set_nth_mid : forall A (l1 l2 : list A) x y,
  set_nth (List.length l1) x (l1 ++ y :: l2) = l1 ++ x :: l2.
Proof. induction l1 as [|z l1 IH]; intros; cbn; [reflexivity|]. f_equal. apply IH. Qed.
Lemma zset_mid : forall A (l1 l2 : list A) x y, zset (zlen l1) x (l1 ++ y :: l2) = l1 ++ x :: l2.
Proof.
  intros. unfold zset. pose proof (zlen_nonneg _ l1). destruct (Z.ltb_spec (zlen l1) 0); [lia|].
  unfold zlen. rewrite Nat2Z.id. apply set_nth_mid.
Qed.
Lemma zset_id : forall A (l : list A) i x, znth l i = Some x -> zset i x l = l.
Proof.
  intros A l i x H. destruct (znth_split _ _ _ _ H) as (l1 & l2 & -> & <-). apply zset_mid.
Qed.
Lemma znth_zset : forall A (l : list A) i j x, 0 <= i < zlen l ->
  znth (zset i x l) j = if i =? j then Some x else znth l j.
Proof.
  intros A l i j x H. destruct (Z.eqb_spec i j) as [<-|N].
  - apply znth_zset_same. exact H.
  - apply znth_zset_other. exact N.
Qed.

(** ** Sorted maps. *)
(** The keys increase. *)
Fixpoint sorted_keys {A} (m : omap A) : Prop :=
  match m with
  | [] => True
  | (k, _) :: m' => (forall j v, In (j, v) m' -> k < j) /\ sorted_keys m'
  end.

Lemma om_find_in : forall A (m : omap A) k v, om_find k m = Some v -> In (k, v) m.
Proof.
  induction m as [|[j w] m IH]; intros k v H; cbn in H; [discriminate|].
  destruct (Z.eqb_spec j k) as [->|N]; [injection H as ->; left; reflexivity|right; auto].
Qed.
Lemma om_in_find : forall A (m : omap A) k v, sorted_keys m -> In (k, v) m -> om_find k m = Some v.
Proof.
  induction m as [|[j w] m IH]; intros k v S H; [destruct H|]. cbn in *. destruct S as [S1 S2].
  destruct H as [E|H].
  - injection E as -> ->. rewrite Z.eqb_refl. reflexivity.
  - specialize (S1 _ _ H). destruct (Z.eqb_spec j k); [lia|]. auto.
Qed.
Lemma om_find_none : forall A (m : omap A) k, om_find k m = None -> forall v, ~ In (k, v) m.
Proof.
  induction m as [|[j w] m IH]; intros k H v; cbn in H; [intros []|].
  destruct (Z.eqb_spec j k) as [->|N]; [discriminate|]. intros [E|E]; [congruence|].
  eapply IH; eassumption.
Qed.
Lemma om_set_in : forall A (m : omap A) k v j w,
  In (j, w) (om_set k v m) -> (j = k /\ w = v) \/ In (j, w) m.
Proof.
  induction m as [|[i u] m IH]; intros k v j w H; cbn in H.
  - destruct H as [E|[]]. injection E as -> ->. auto.
  - destruct (i <? k); [|destruct (i =? k)].
    + destruct H as [E|H]; [right; left; exact E|]. destruct (IH _ _ _ _ H) as [?|?]; auto. right. right. auto.
    + destruct H as [E|H]; [injection E as -> ->; auto|]. right. right. exact H.
    + destruct H as [E|H]; [injection E as -> ->; auto|]. right. exact H.
Qed.
Lemma om_set_sorted : forall A (m : omap A) k v, sorted_keys m -> sorted_keys (om_set k v m).
Proof.
  induction m as [|[i u] m IH]; intros k v S; cbn in *; [split; [intros ? ? []|exact I]|].
  destruct S as [S1 S2]. destruct (Z.ltb_spec i k); [|destruct (Z.eqb_spec i k)].
  - cbn. split; [|auto]. intros j w H1. apply om_set_in in H1. destruct H1 as [[-> ->]|H1]; [lia|eauto].
  - subst. cbn. auto.
  - cbn. split; [|auto]. intros j w [E|H1]; [injection E as -> ->; lia|]. specialize (S1 _ _ H1). lia.
Qed.
Lemma om_find_set : forall A (m : omap A) k v j, sorted_keys m ->
  om_find j (om_set k v m) = if k =? j then Some v else om_find j m.
Proof.
  induction m as [|[i u] m IH]; intros k v j S; cbn in *.
  - destruct (Z.eqb_spec k j); reflexivity.
  - destruct S as [S1 S2]. destruct (Z.ltb_spec i k); [|destruct (Z.eqb_spec i k)]; cbn.
    + rewrite IH by exact S2. destruct (Z.eqb_spec i j), (Z.eqb_spec k j); try reflexivity; lia.
    + subst. destruct (Z.eqb_spec k j); reflexivity.
    + destruct (Z.eqb_spec k j); reflexivity.
Qed.
Lemma om_merge_sorted : forall A f (m : omap A) k v, sorted_keys m -> sorted_keys (om_merge f k v m).
Proof. intros A f m k v S. unfold om_merge. destruct (om_find k m); apply om_set_sorted; exact S. Qed.
Lemma om_find_merge : forall A f (m : omap A) k v j, sorted_keys m ->
  om_find j (om_merge f k v m) =
  if k =? j then Some (match om_find k m with Some old => f old v | None => v end) else om_find j m.
Proof.
  intros A f m k v j S. unfold om_merge. destruct (om_find k m); rewrite om_find_set by exact S; reflexivity.
Qed.
Lemma om_merge_in : forall A f (m : omap A) k v j w, In (j, w) (om_merge f k v m) ->
  j = k \/ In (j, w) m.
Proof.
  intros A f m k v j w H. unfold om_merge in H.
  destruct (om_find k m); apply om_set_in in H; destruct H as [[-> _]|H]; auto.
Qed.
Lemma om_find_insert : forall A (m : omap A) k v j, sorted_keys m ->
  om_find j (om_insert k v m) =
  if k =? j then Some (match om_find k m with Some old => old | None => v end) else om_find j m.
Proof.
  intros A m k v j S. unfold om_insert. destruct (om_find k m) eqn:E.
  - destruct (Z.eqb_spec k j) as [<-|]; [exact E|reflexivity].
  - apply om_find_set. exact S.
Qed.
Lemma om_insert_sorted : forall A (m : omap A) k v, sorted_keys m -> sorted_keys (om_insert k v m).
Proof. intros A m k v S. unfold om_insert. destruct (om_find k m); [exact S|]. apply om_set_sorted. exact S. Qed.
Lemma sorted_ext : forall A (m1 m2 : omap A), sorted_keys m1 -> sorted_keys m2 ->
  (forall k, om_find k m1 = om_find k m2) -> m1 = m2.
Proof.
  induction m1 as [|[k v] m1 IH]; intros [|[j w] m2] S1 S2 H.
  - reflexivity.
  - specialize (H j). cbn in H. rewrite Z.eqb_refl in H. discriminate.
  - specialize (H k). cbn in H. rewrite Z.eqb_refl in H. discriminate.
  - cbn in S1, S2. destruct S1 as [A1 S1], S2 as [A2 S2].
    assert (k = j).
    { destruct (Z.lt_trichotomy k j) as [L|[L|L]]; [|exact L|]; exfalso.
      - specialize (H k). cbn in H. rewrite Z.eqb_refl in H. destruct (Z.eqb_spec j k); [lia|].
        symmetry in H. apply om_find_in in H. specialize (A2 _ _ H). lia.
      - specialize (H j). cbn in H. rewrite Z.eqb_refl in H. destruct (Z.eqb_spec k j); [lia|].
        apply om_find_in in H. specialize (A1 _ _ H). lia. }
    subst j. pose proof (H k) as E. cbn in E. rewrite Z.eqb_refl in E. injection E as ->. f_equal.
    apply IH; auto. intros q. specialize (H q). cbn in H. destruct (Z.eqb_spec k q) as [Q|Q]; [rewrite <- Q|exact H].
    destruct (om_find k m1) eqn:E1; [apply om_find_in in E1; specialize (A1 _ _ E1); lia|].
    destruct (om_find k m2) eqn:E2; [apply om_find_in in E2; specialize (A2 _ _ E2); lia|]. reflexivity.
Qed.
