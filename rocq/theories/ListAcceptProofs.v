(** Proofs that a listing assembles. *)
From Verif Require Import Base ModelNumeric ModelAddress ModelMnemonic ModelExpr ModelAMode ModelOpcode ModelState ModelInstr ModelToken ModelStatement ModelParse ModelMap ModelModule ModelAssembler
  SpecArith SpecText SpecState SpecScope SpecLayout SpecAssemble SpecFlow BaseProofs MapProofs ArithProofs LoadProofs ScopeProofs PassProofs LayoutProofs AssembleProofs ProgramProofs
  FlowProofs FlowRunProofs FlowArriveProofs FlowKindProofs ModelDisasm PrintProofs ModelTools ToolTextProofs RelistProofs CleanProofs AcceptProofs.
Open Scope string_scope.
Open Scope list_scope.
Open Scope Z_scope.
Local Opaque check_consistency parse tokenize instr_to_string encode_opcode execute_in execute_branch local_index.

(** ** The lines of a listing and what they were made of. *)
Inductive ann : Type :=
| AOrg (a : Z)
| AEntry (a : Z) (c : dinstr) (i : instr)
| AInstr (a : Z) (c : dinstr) (i : instr).
Definition ann_src (mk : dinstr -> instr -> statement) (x : ann) : list (string * bool) * statement :=
  match x with
  | AOrg a => ([], org_stmt a)
  | AEntry a c i => (label_list (di_label c), entry_stmt (entry_flags (es_flags (di_cur c))))
  | AInstr a c i => ((if di_entry c then [] else label_list (di_label c)), mk c i)
  end.
Definition first_ann (a : Z) (c : dinstr) (i : instr) : ann := if di_entry c then AEntry a c i else AInstr a c i.
Definition item_anns (a : Z) (c : dinstr) (i : instr) : list ann := if di_entry c then [AEntry a c i; AInstr a c i] else [AInstr a c i].
Fixpoint ann_of (pc : Z) (m : omap dinstr) (is : list instr) : list ann :=
  match m, is with
  | (a, c) :: m', i :: is' => (if a =? pc then [] else [AOrg a]) ++ item_anns a c i ++ ann_of (add_wrapped a (instr_size (di_instr c))) m' is'
  | _, _ => []
  end.
Definition listing_anns (m : omap dinstr) (is : list instr) : list ann := match m with [] => [] | (a, _) :: _ => AOrg a :: ann_of a m is end.
Definition item (m : omap dinstr) (is : list instr) (a : Z) (c : dinstr) (i : instr) : Prop := In ((a, c), i) (combine m is).

Lemma ann_src_of : forall mk m is pc, src_of mk pc m is = map (ann_src mk) (ann_of pc m is).
Proof.
  intros mk. induction m as [|[a c] m IH]; intros [|i is] pc; try reflexivity. cbn [src_of ann_of]. rewrite !map_app, (IH is). f_equal; [destruct (a =? pc); reflexivity|]. f_equal.
  unfold entry_src, item_anns. destruct (di_entry c) eqn:E; cbn [map ann_src]; rewrite E; reflexivity.
Qed.
Lemma listing_anns_src : forall mk m is, listing_src mk m is = map (ann_src mk) (listing_anns m is).
Proof. intros mk [|[a c] m] is; [reflexivity|]. unfold listing_src, listing_anns. cbn [map ann_src]. rewrite ann_src_of. reflexivity. Qed.
Definition ann_ok (m : omap dinstr) (is : list instr) (x : ann) : Prop :=
  match x with AOrg a => exists c, In (a, c) m | AEntry a c i => item m is a c i /\ di_entry c = true | AInstr a c i => item m is a c i end.
Lemma ann_ok_cons : forall p m i is x, ann_ok m is x -> ann_ok (p :: m) (i :: is) x.
Proof. intros p m i is [a|a c j|a c j] H; cbn in *; [destruct H as [c H]; eauto| |]; unfold item in *; cbn [combine In]; [destruct H|]; auto. Qed.
Lemma ann_items : forall m is pc x, In x (ann_of pc m is) -> ann_ok m is x.
Proof.
  induction m as [|[a c] m IH]; intros [|i is] pc x IN; try destruct IN. cbn [ann_of] in IN. apply in_app_or in IN. destruct IN as [IN|IN]; [|apply in_app_or in IN; destruct IN as [IN|IN]].
  - destruct (a =? pc); [destruct IN|]. destruct IN as [<-|[]]. exists c. left. reflexivity.
  - unfold item_anns in IN. destruct (di_entry c) eqn:E; cbn in IN; [destruct IN as [<-|[<-|[]]]|destruct IN as [<-|[]]]; cbn; unfold item; cbn [combine In]; auto.
  - apply ann_ok_cons. eapply IH. exact IN.
Qed.
Lemma all_items : forall m is x, In x (listing_anns m is) -> ann_ok m is x.
Proof. intros [|[a c] m] is x IN; [destruct IN|]. destruct IN as [<-|IN]; [exists c; left; reflexivity|]. eapply ann_items. exact IN. Qed.
Lemma item_in : forall m is a c i, item m is a c i -> In (a, c) m.
Proof. intros m is a c i H. apply in_combine_l in H. exact H. Qed.
Lemma item_same : forall m is a c i c' i', sorted_keys m -> item m is a c i -> item m is a c' i' -> c = c' /\ i = i'.
Proof.
  unfold item. induction m as [|[b x] m IH]; intros [|j is] a c i c' i' SO H H'; try destruct H. 1,2: cbn [combine In] in H'; destruct SO as [S0 SO]; destruct H' as [H'|H'].
  - split; congruence.
  - injection H as <- <- <-. apply in_combine_l in H'. apply S0 in H'. lia.
  - injection H' as <- <- <-. apply in_combine_l in H. apply S0 in H. lia.
  - eapply IH; eassumption.
Qed.
(** Every item has its lines. *)
Lemma item_lines : forall m is pc a c i, item m is a c i -> exists k, nth_error (ann_of pc m is) k = Some (first_ann a c i) /\
  nth_error (ann_of pc m is) (if di_entry c then Datatypes.S k else k) = Some (AInstr a c i).
Proof.
  unfold item. induction m as [|[b x] m IH]; intros [|j is] pc a c i H; try destruct H.
  - injection H as -> -> ->. cbn [ann_of]. unfold item_anns, first_ann. exists (List.length (if a =? pc then [] else [AOrg a])). destruct (di_entry c).
    + split; (rewrite nth_error_app2; [|lia]); [rewrite Nat.sub_diag|rewrite Nat.sub_succ_l, Nat.sub_diag by lia]; reflexivity.
    + split; (rewrite nth_error_app2; [|lia]); rewrite Nat.sub_diag; reflexivity.
  - destruct (IH is (add_wrapped b (instr_size (di_instr x))) a c i H) as (k & K1 & K2). cbn [ann_of]. rewrite app_assoc. set (pre := _ ++ item_anns b x j).
    exists (List.length pre + k)%nat. split; [rewrite nth_error_app2 by lia; replace (List.length pre + k - List.length pre)%nat with k by lia; exact K1|].
    rewrite nth_error_app2 by (destruct (di_entry c); lia).
    replace ((if di_entry c then Datatypes.S (List.length pre + k) else List.length pre + k) - List.length pre)%nat with (if di_entry c then Datatypes.S k else k) by (destruct (di_entry c); lia). exact K2.
Qed.
Lemma item_all_lines : forall m is a c i, item m is a c i -> exists k, nth_error (listing_anns m is) k = Some (first_ann a c i) /\
  nth_error (listing_anns m is) (if di_entry c then Datatypes.S k else k) = Some (AInstr a c i).
Proof.
  intros [|[b x] m] is a c i H; [destruct H|]. destruct (item_lines _ is b a c i H) as (k & K1 & K2).
  exists (Datatypes.S k). unfold listing_anns. cbn [nth_error]. split; [exact K1|]. destruct (di_entry c); exact K2.
Qed.
(** ... and only those. *)
Lemma line_once : forall m is pc k k' a c i c' i', sorted_keys m -> nth_error (ann_of pc m is) k = Some (AInstr a c i) -> nth_error (ann_of pc m is) k' = Some (AInstr a c' i') -> k = k'.
Proof.
  induction m as [|[b x] m IH]; intros [|j is] pc k k' a c i c' i' SO H H'; try (destruct k; discriminate H).
  destruct SO as [S0 SO]. cbn [ann_of] in H, H'. rewrite app_assoc in H, H'. set (pre := _ ++ item_anns b x j) in *. set (post := ann_of _ m is) in *.
  assert (FAR : forall k a c i, nth_error post k = Some (AInstr a c i) -> b < a).
  { intros k0 a0 c0 i0 E. apply nth_error_In in E. apply ann_items in E. apply item_in in E. exact (S0 _ _ E). }
  assert (NEAR : forall k a c i, nth_error pre k = Some (AInstr a c i) -> a = b /\ k = (List.length pre - 1)%nat).
  { intros k0 a0 c0 i0 E. unfold pre, item_anns in *. destruct (b =? pc), (di_entry x); cbn in E |- *; repeat (destruct k0 as [|k0]; cbn in E; try discriminate E); try (injection E as <- _ _; auto). }
  destruct (Nat.lt_ge_cases k (List.length pre)) as [L|L], (Nat.lt_ge_cases k' (List.length pre)) as [L'|L'].
  - rewrite nth_error_app1 in H, H' by lia. apply NEAR in H, H'. lia.
  - rewrite nth_error_app1 in H by lia. rewrite nth_error_app2 in H' by lia. apply NEAR in H. apply FAR in H'. lia.
  - rewrite nth_error_app2 in H by lia. rewrite nth_error_app1 in H' by lia. apply NEAR in H'. apply FAR in H. lia.
  - rewrite nth_error_app2 in H, H' by lia. assert (k - List.length pre = k' - List.length pre)%nat by (eapply IH; eassumption). lia.
Qed.
Lemma line_once_all : forall m is k k' a c i c' i', sorted_keys m -> nth_error (listing_anns m is) k = Some (AInstr a c i) -> nth_error (listing_anns m is) k' = Some (AInstr a c' i') -> k = k'.
Proof.
  intros [|[b x] m] is k k' a c i c' i' SO H H'; [destruct k; discriminate H|]. unfold listing_anns in *. destruct k as [|k]; [discriminate H|]. destruct k' as [|k']; [discriminate H'|]. f_equal. cbn [nth_error] in *. eapply line_once; eassumption.
Qed.
(** The line after an entry is its instruction. *)
Lemma entry_then : forall m is pc k a c i, nth_error (ann_of pc m is) k = Some (AEntry a c i) -> nth_error (ann_of pc m is) (Datatypes.S k) = Some (AInstr a c i).
Proof.
  induction m as [|[b x] m IH]; intros [|j is] pc k a c i H; try (destruct k; discriminate H).
  cbn [ann_of] in H |- *. rewrite app_assoc in H |- *. set (pre := _ ++ item_anns b x j) in *. set (post := ann_of _ m is) in *.
  destruct (Nat.lt_ge_cases k (List.length pre)) as [L|L].
  - rewrite nth_error_app1 in H by lia. unfold pre, item_anns in *. destruct (b =? pc), (di_entry x); cbn in H |- *; repeat (destruct k as [|k]; cbn in H; try discriminate H); injection H as <- <- <-; reflexivity.
  - rewrite nth_error_app2 in H |- * by lia. rewrite Nat.sub_succ_l by lia. eapply IH. exact H.
Qed.
Lemma entry_then_all : forall m is k a c i, nth_error (listing_anns m is) k = Some (AEntry a c i) -> nth_error (listing_anns m is) (Datatypes.S k) = Some (AInstr a c i).
Proof. intros [|[b x] m] is k a c i H; [destruct k; discriminate H|]. unfold listing_anns in *. destruct k as [|k]; [discriminate H|]. cbn [nth_error] in H |- *. eapply entry_then. exact H. Qed.
(** The line after an instruction is the first of the one that follows immediately. *)
Definition packed (m : omap dinstr) : Prop := forall a c b x, In (a, c) m -> In (b, x) m -> a < b -> a + instr_size (di_instr c) <= b.
Lemma first_head : forall m is pc a c i m' is', m = (a, c) :: m' -> is = i :: is' -> a = pc -> nth_error (ann_of pc m is) 0 = Some (first_ann a c i).
Proof. intros m is pc a c i m' is' -> -> <-. cbn [ann_of]. rewrite Z.eqb_refl. unfold item_anns, first_ann. destruct (di_entry c); reflexivity. Qed.
Lemma instr_then : forall m is pc k a c i b x j, sorted_keys m -> packed m -> nth_error (ann_of pc m is) k = Some (AInstr a c i) ->
  b = add_wrapped a (instr_size (di_instr c)) -> b = a + instr_size (di_instr c) -> 0 < instr_size (di_instr c) -> item m is b x j -> nth_error (ann_of pc m is) (Datatypes.S k) = Some (first_ann b x j).
Proof.
  induction m as [|[a0 c0] m IH]; intros [|i0 is] pc k a c i b x j SO PK H W N Z IT; try (destruct k; discriminate H).
  destruct SO as [S0 SO]. assert (PK' : packed m) by (intros a1 c1 b1 x1 I1 I2; apply (PK a1 c1 b1 x1); right; assumption).
  cbn [ann_of] in H |- *. rewrite app_assoc in H |- *. set (pre := _ ++ item_anns a0 c0 i0) in *.
  destruct (Nat.lt_ge_cases k (List.length pre)) as [L|L].
  - rewrite nth_error_app1 in H by lia.
    assert (Q : (a = a0 /\ c = c0 /\ i = i0) /\ Datatypes.S k = List.length pre).
    { unfold pre, item_anns in *. destruct (a0 =? pc), (di_entry c0); cbn in H |- *; repeat (destruct k as [|k]; cbn in H; try discriminate H); injection H as <- <- <-; auto. }
    destruct Q as [(-> & -> & ->) Q]. rewrite Q, nth_error_app2, Nat.sub_diag by lia. rewrite <- W.
    unfold item in IT. cbn [combine In] in IT. destruct IT as [IT|IT]; [injection IT as X _ _; lia|].
    destruct m as [|[b0 x0] m]; [destruct IT|]. destruct is as [|j0 is]; [destruct IT|]. cbn [combine In] in IT. destruct IT as [IT|IT].
    + injection IT as -> -> ->. eapply first_head; reflexivity.
    + apply in_combine_l in IT. assert (a0 + instr_size (di_instr c0) <= b0) by (apply (PK a0 c0 b0 x0); [left; reflexivity|right; left; reflexivity|]; apply (S0 b0 x0); left; reflexivity).
      destruct SO as [S1 _]. apply S1 in IT. lia.
  - rewrite nth_error_app2 in H |- * by lia. rewrite Nat.sub_succ_l by lia. eapply IH; try eassumption.
    unfold item in IT |- *. cbn [combine In] in IT. destruct IT as [IT|IT]; [|exact IT]. injection IT as <- <- <-. apply nth_error_In in H. apply ann_items in H. apply item_in in H. apply S0 in H. lia.
Qed.
Lemma instr_then_all : forall m is k a c i b x j, sorted_keys m -> packed m -> nth_error (listing_anns m is) k = Some (AInstr a c i) ->
  b = add_wrapped a (instr_size (di_instr c)) -> b = a + instr_size (di_instr c) -> 0 < instr_size (di_instr c) -> item m is b x j -> nth_error (listing_anns m is) (Datatypes.S k) = Some (first_ann b x j).
Proof. intros [|[a0 c0] m] is k a c i b x j SO PK H W N Z IT; [destruct k; discriminate H|]. unfold listing_anns in *. destruct k as [|k]; [discriminate H|]. cbn [nth_error] in H |- *. eapply instr_then; eassumption. Qed.

(** ** Listings load. *)
Definition flat (s : statement) : Prop := (exists i, s = SInstr i) \/ (exists a, s = org_stmt a) \/ exists g, s = entry_stmt g.
Lemma ann_flat : forall mk x, (forall c i, exists j, mk c i = SInstr j) -> flat (snd (ann_src mk x)).
Proof. intros mk [a|a c i|a c i] H; cbn; [right; left; eauto|right; right; eauto|left; apply H]. Qed.
Lemma flat_nesting : forall ss, Forall flat ss -> nesting ss = 0.
Proof. intros ss F. induction F as [|s ss S F IH]; [reflexivity|]. destruct S as [[i ->]|[[a ->]|[g ->]]]; cbn [nesting org_stmt entry_stmt d_name]; exact IH. Qed.
Lemma flat_push : forall i s sc, flat s -> push i s sc = sc.
Proof. intros i s sc [[j ->]|[[a ->]|[g ->]]]; reflexivity. Qed.
Lemma flat_names : forall ss, Forall flat ss -> LoadProofs.names_ok ss "".
Proof.
  intros ss. induction ss as [|s ss IH] using rev_ind; intros F; [constructor|]. apply Forall_app in F. destruct F as [F FS]. apply LoadProofs.no_other; [apply IH; exact F|].
  inversion FS as [|? ? S _]; subst. intros (d & E & D). destruct S as [[j ->]|[[a ->]|[g ->]]]; [discriminate E|injection E as <-; discriminate D..].
Qed.
Definition labels_of (m : omap dinstr) : list string := flat_map (fun kv => map fst (label_list (di_label (snd kv)))) m.
Lemma flat_keys : forall (src : SpecScope.source) i, Forall flat (map snd src) -> (forall l s, In (l, s) src -> Forall (fun nx => snd nx = false) l) ->
  keys (dlist_from i [] src) = map (fun n => (@None Z, n)) (flat_map (fun p => map fst (fst p)) src).
Proof.
  induction src as [|[l s] src IH]; intros i F L; [reflexivity|]. cbn [map snd] in F. inversion F as [|? ? S F']; subst. cbn [dlist_from flat_map fst]. rewrite keys_app, map_app, (flat_push _ _ _ S). f_equal.
  - pose proof (L l s (or_introl eq_refl)) as X. clear - X. unfold label_defs, keys. induction X as [|[n b] l E X IH]; [reflexivity|]. cbn [map fst snd] in *. subst b. rewrite IH. reflexivity.
  - apply IH; [exact F'|]. intros l' s' IN. apply (L l' s'). right. exact IN.
Qed.
Lemma label_plain : forall l, Forall (fun nx : string * bool => snd nx = false) (label_list l).
Proof. intros l. unfold label_list. destruct (String.eqb l ""); repeat constructor. Qed.
Lemma ann_plain : forall mk x, Forall (fun nx => snd nx = false) (fst (ann_src mk x)).
Proof. intros mk [a|a c i|a c i]; cbn; [constructor|apply label_plain|]. destruct (di_entry c); [constructor|apply label_plain]. Qed.
Lemma ann_labels : forall mk m is pc, List.length m = List.length is -> flat_map (fun p => map fst (fst p)) (map (ann_src mk) (ann_of pc m is)) = labels_of m.
Proof.
  intros mk. induction m as [|[a c] m IH]; intros [|i is] pc L; try discriminate L; [reflexivity|]. cbn [ann_of]. rewrite !map_app, !flat_map_app. injection L as L. rewrite (IH is _ L).
  unfold labels_of at 2. cbn [flat_map snd]. unfold item_anns. destruct (a =? pc), (di_entry c) eqn:E; cbn [map flat_map app ann_src fst]; rewrite ?E, ?app_nil_r; reflexivity.
Qed.
Lemma labels_in : forall m n, In n (labels_of m) -> exists a c, In (a, c) m /\ di_label c = n /\ n <> "".
Proof.
  intros m n H. unfold labels_of in H. apply in_flat_map in H. destruct H as ([a c] & IN & H). exists a, c. split; [exact IN|]. cbn [snd] in H. unfold label_list in H.
  destruct (String.eqb_spec (di_label c) "") as [E|E]; [destruct H|]. destruct H as [<-|[]]. auto.
Qed.
Lemma labels_once : forall m, sorted_keys m -> unique_labels m -> NoDup (labels_of m).
Proof.
  induction m as [|[a c] m IH]; intros SO U; [constructor|]. destruct SO as [S0 SO]. unfold labels_of. cbn [flat_map snd]. specialize (IH SO (unique_tail _ _ U)).
  unfold label_list. destruct (String.eqb_spec (di_label c) "") as [E|E]; [exact IH|]. cbn [map fst app]. constructor; [|exact IH].
  intros IN. apply labels_in in IN. destruct IN as (b & x & IX & LX & _). assert (a = b) by (apply (U a b c x); [left; reflexivity|right; exact IX|exact E|congruence]). apply S0 in IX. lia.
Qed.
Lemma all_flat : forall mk m is, (forall c i, exists j, mk c i = SInstr j) -> Forall flat (map snd (listing_src mk m is)).
Proof. intros mk m is H. rewrite listing_anns_src, map_map. apply Forall_forall. intros s IN. apply in_map_iff in IN. destruct IN as (x & <- & _). apply ann_flat. exact H. Qed.
Lemma own_instr : forall c i, exists j, with_own c i = SInstr j.
Proof. intros c i. unfold with_own. eauto. Qed.
Lemma listing_loads : forall out m is, Forall comment out -> Forall2 ToolTextProofs.shows m is -> sorted_keys m -> unique_labels m ->
  load_asm_file (out ++ ModelTools.listing m) = Ok (module_of "" (listing_src (fun _ => SInstr) m is)).
Proof.
  intros out m is CM F SO U. apply load_exact. exists (listing_src (fun _ => SInstr) m is), "". split; [apply (proj2 (comments_read _ _ _ CM)), listing_read; exact F|].
  assert (L : List.length m = List.length is) by (clear - F; induction F; cbn; congruence).
  pose proof (all_flat (fun _ => SInstr) m is ltac:(eauto)) as FL. split; [|split; [apply flat_nesting; exact FL|reflexivity]]. split; [|split; [|apply flat_names; exact FL]].
  - unfold dlist. rewrite flat_keys; [|exact FL|].
    + assert (E : flat_map (fun p => map fst (fst p)) (listing_src (fun _ => SInstr) m is) = labels_of m).
      { rewrite listing_anns_src. destruct m as [|[a c] m]; [reflexivity|]. unfold listing_anns. cbn [map flat_map ann_src fst app]. apply (ann_labels (fun _ => SInstr) ((a, c) :: m) is a L). }
      rewrite E. pose proof (labels_once m SO U) as ND. apply FinFun.Injective_map_NoDup; [|exact ND]. intros x y X. congruence.
    + intros l s IN. rewrite listing_anns_src in IN. apply in_map_iff in IN. destruct IN as (x & E & _). pose proof (ann_plain (fun _ => SInstr) x) as X. rewrite E in X. exact X.
  - intros a b E. rewrite E in FL. apply Forall_app in FL. rewrite flat_nesting by apply FL. lia.
Qed.
(** ... and their labels are found. *)
Lemma flat_quiet : forall s, flat s -> quiet s.
Proof. intros s [[j ->]|[[a ->]|[g ->]]] (d & E & D); [discriminate E|injection E as <-; discriminate D..]. Qed.
Lemma listing_denotes : forall m is a c i k t, item m is a c i -> di_label c <> "" -> nth_error (listing_anns m is) t = Some (first_ann a c i) -> (k <= List.length (listing_anns m is))%nat ->
  denotes (listing_src (fun _ => SInstr) m is) (Z.of_nat k) (di_label c) (Z.of_nat t).
Proof.
  intros m is a c i k t IT NE NT K. set (src := listing_src (fun _ => SInstr) m is).
  assert (QS : forall s, In s (map snd src) -> quiet s).
  { intros s IS. pose proof (all_flat (fun _ => SInstr) m is ltac:(eauto)) as FL. rewrite Forall_forall in FL. apply flat_quiet. apply FL. exact IS. }
  assert (LEN : List.length src = List.length (listing_anns m is)) by (unfold src; rewrite listing_anns_src, map_length; reflexivity).
  apply nth_error_split in NT. destruct NT as (l1 & l2 & E & T).
  assert (DF : defined src None (di_label c) (Z.of_nat t)).
  { assert (EL : exists s, ann_src (fun _ => SInstr) (first_ann a c i) = (label_list (di_label c), s)) by (unfold first_ann; destruct (di_entry c) eqn:DE; cbn; rewrite ?DE; eauto). destruct EL as (s & EL).
    exists 0%nat, (map (ann_src (fun _ => SInstr)) l1), (label_list (di_label c)), s, (map (ann_src (fun _ => SInstr)) l2), false.
    split; [unfold src; rewrite listing_anns_src, E, map_app; cbn [map]; rewrite EL; reflexivity|]. split; [rewrite map_length; congruence|]. split.
    - unfold label_list. destruct (String.eqb_spec (di_label c) ""); [contradiction|reflexivity].
    - right. intros b. apply quiet_closed. intros x IX. apply QS. unfold src. rewrite listing_anns_src, E, !map_app. apply in_or_app. left. exact IX. }
  exists (firstn k src), (skipn k src). split; [symmetry; apply firstn_skipn|]. split; [rewrite firstn_length_le by lia; reflexivity|].
  assert (Q : forall b, ~ open_at (map snd (firstn k src)) b).
  { intros b. apply quiet_closed. intros x IX. apply QS. rewrite <- (firstn_skipn k src), map_app. apply in_or_app. left. exact IX. }
  right. split; [exact DF|]. intros b' t' O. destruct (Q _ O).
Qed.

(** ** What makes a listing acceptable: [St] says which states can come up at an instruction. *)
Inductive visited (m : omap dinstr) (is : list instr) : Z -> Prop :=
| vi_entry : forall a c i, item m is a c i -> di_entry c = true -> visited m is a
| vi_next : forall a c i, visited m is a -> item m is a c i -> is_exit_instruction i = false -> offset_of a + instr_size (di_instr c) < 65536 -> visited m is (a + instr_size (di_instr c))
| vi_branch : forall a c i t x j, visited m is a -> item m is a c i -> is_local_branch i = true -> item m is t x j -> di_label x <> "" ->
    simple_identifier_opt (i_arg1 i) = Some (di_label x) -> visited m is t.
Record plan (St : dinstr -> estate -> Prop) (m : omap dinstr) (is : list instr) : Prop := Plan {
  pl_shows : Forall2 ToolTextProofs.shows m is;
  pl_sorted : sorted_keys m;
  pl_unique : unique_labels m;
  pl_merge : forall c a b, St c a -> St c b -> St c (es_merge a b);
  pl_entry : forall a c i, item m is a c i -> di_entry c = true -> St c (estate_of_flags (entry_flags (es_flags (di_cur c))));
  pl_exec : forall a c i s, item m is a c i -> St c s -> exists s', execute i s = Ok s' /\ (is_exit_instruction i = false ->
    exists x j, item m is (a + instr_size (di_instr c)) x j /\ offset_of a + instr_size (di_instr c) < 65536 /\ St x s');
  pl_branch : forall a c i, item m is a c i -> is_local_branch i = true -> exists t x j, item m is t x j /\ di_label x <> "" /\
    simple_identifier_opt (i_arg1 i) = Some (di_label x) /\ forall s, St c s -> exists s', execute_branch i s = Ok s' /\ St x s';
  pl_mode : forall a c i s, item m is a c i -> St c s -> fix_addressing_mode i (es_flags s) = Ok (with_mode (i_mode (di_instr c)) i);
  pl_size : forall a c i, item m is a c i -> i_mnem i = i_mnem (di_instr c) /\ 0 < instr_size (di_instr c);
  pl_bytes : forall a c i ctx, item m is a c i -> (forall b x, In (b, x) m -> di_label x <> "" -> ctx (FullId None (di_label x)) = Ok b) ->
    exists l, instr_bytes a ctx (with_mode (i_mode (di_instr c)) i) = Ok l;
  pl_far : forall a c i, item m is a c i -> exists t, far_branch_target (with_mode (i_mode (di_instr c)) i) a = Ok t;
  pl_apart : packed m;
  pl_inside : forall a c, In (a, c) m -> offset_of a + instr_size (di_instr c) <= 65536;
  pl_visited : forall a c i, item m is a c i -> visited m is a }.

Lemma shown_24 : forall m is a c, Forall2 ToolTextProofs.shows m is -> In (a, c) m -> addr24 a.
Proof. intros m is a c F IN. induction F as [|kv i m is S F IH]; [destruct IN|]. destruct IN as [->|IN]; [apply S|auto]. Qed.
Lemma no_wrap : forall a n, addr24 a -> 0 <= n -> offset_of a + n < 65536 -> add_wrapped a n = a + n.
Proof. intros a n A N O. rewrite add_wrapped_spec by exact A. unfold same_bank_plus, bank_of, offset_of, addr24 in *. change (2 ^ 16) with 65536 in *. Z.div_mod_to_equations. lia. Qed.

Definition lines_state (St : dinstr -> estate -> Prop) (anns : list ann) (k : Z) (s : estate) : Prop :=
  exists n x a c i, k = Z.of_nat n /\ nth_error anns n = Some x /\ (x = AEntry a c i \/ x = AInstr a c i) /\ St c s.
Lemma ann_line : forall name m is n x, nth_error (listing_anns m is) n = Some x ->
  exists l, znth (md_lines (module_of name (listing_src (fun _ => SInstr) m is))) (Z.of_nat n) = Some l /\ ln_stmt l = snd (ann_src (fun _ => SInstr) x).
Proof.
  intros name m is n x H. apply stmt_line. unfold stmt_at. rewrite listing_anns_src, map_map. rewrite (map_nth_error _ _ _ H). reflexivity.
Qed.
Lemma line_ann : forall name m is k l, znth (md_lines (module_of name (listing_src (fun _ => SInstr) m is))) k = Some l ->
  exists n x, k = Z.of_nat n /\ nth_error (listing_anns m is) n = Some x /\ ln_stmt l = snd (ann_src (fun _ => SInstr) x).
Proof.
  intros name m is k l H. destruct (line_stmt _ _ _ _ H) as [K ST]. exists (Z.to_nat k). unfold stmt_at in ST. rewrite listing_anns_src, map_map in ST.
  destruct (nth_error (listing_anns m is) (Z.to_nat k)) as [x|] eqn:E.
  - exists x. rewrite (map_nth_error _ _ _ E) in ST. injection ST as ST. split; [lia|]. auto.
  - apply nth_error_None in E. assert (X : (Z.to_nat k < List.length (map (fun x => snd (ann_src (fun _ => SInstr) x)) (listing_anns m is)))%nat) by (apply nth_error_Some; congruence). rewrite map_length in X. lia.
Qed.
Lemma label_index : forall St m is a c i k l t, plan St m is -> item m is a c i -> di_label c <> "" -> nth_error (listing_anns m is) t = Some (first_ann a c i) ->
  znth (md_lines (module_of "" (listing_src (fun _ => SInstr) m is))) k = Some l -> local_index (module_of "" (listing_src (fun _ => SInstr) m is)) (di_label c) (ln_scopes l) = Ok (Z.of_nat t).
Proof.
  intros St m is a c i k l t PL IT NE NT L. pose proof (listing_loads [] _ _ (Forall_nil _) (pl_shows _ _ _ PL) (pl_sorted _ _ _ PL) (pl_unique _ _ _ PL)) as LD.
  pose proof (listing_read _ _ (pl_shows _ _ _ PL)) as RD. destruct (line_ann _ _ _ _ _ L) as (n & x & -> & NX & _). rewrite <- nat_znth in L.
  apply (proj2 (lookup_denotes _ _ _ _ n l (di_label c) (Z.of_nat t) LD RD (same_scopes_refl _) L)). eapply listing_denotes; try eassumption. apply Nat.lt_le_incl. apply nth_error_Some. congruence.
Qed.
Lemma first_state : forall (St : dinstr -> estate -> Prop) m is a c i n s, nth_error (listing_anns m is) n = Some (first_ann a c i) -> St c s -> lines_state St (listing_anns m is) (Z.of_nat n) s.
Proof. intros St m is a c i n s N H. exists n, (first_ann a c i), a, c, i. split; [reflexivity|]. split; [exact N|]. split; [|exact H]. unfold first_ann. destruct (di_entry c); auto. Qed.
Lemma plan_runs : forall St m is, plan St m is -> let m0 := module_of "" (listing_src (fun _ => SInstr) m is) in let P := lines_state St (listing_anns m is) in
  merges P /\ runnable m0 P /\ closed_under m0 (md_lines m0) P /\ (forall j s, entry_at m0 j s -> P j s) /\
  (forall a c i k, nth_error (listing_anns m is) k = Some (AInstr a c i) -> lpath m0 (Z.of_nat k)).
Proof.
  intros St m is PL m0 P.
  assert (NXT : forall a c i n x j, nth_error (listing_anns m is) n = Some (AInstr a c i) -> item m is (a + instr_size (di_instr c)) x j -> offset_of a + instr_size (di_instr c) < 65536 ->
    nth_error (listing_anns m is) (Datatypes.S n) = Some (first_ann (a + instr_size (di_instr c)) x j)).
  { intros a c i n x j N IX OF. pose proof (all_items _ _ _ (nth_error_In _ _ N)) as IT. cbn in IT. destruct (pl_size _ _ _ PL _ _ _ IT) as [_ SZ].
    eapply instr_then_all; [exact (pl_sorted _ _ _ PL)|exact (pl_apart _ _ _ PL)|exact N| |reflexivity|exact SZ|exact IX].
    symmetry. apply no_wrap; [eapply shown_24; [exact (pl_shows _ _ _ PL)|eapply item_in; exact IT]|lia|exact OF]. }
  assert (CL : closed_under m0 (md_lines m0) P).
  { intros k l s j s' L (n & x & a & c & i & -> & N & X & HS) F. destruct (ann_line "" _ _ _ _ N) as (l' & L' & SL). fold m0 in L'. assert (l' = l) as -> by congruence. clear L'.
    pose proof (all_items _ _ _ (nth_error_In _ _ N)) as OK. destruct X as [-> | ->]; cbn [ann_ok ann_src snd] in OK, SL.
    - destruct OK as [IT DE]. destruct F as [s' _ E|i0 n0 j s' E]; [|rewrite SL in E; discriminate E].
      rewrite SL in E. cbn in E. injection E as <-. exists (Datatypes.S n), (AInstr a c i), a, c, i. split; [lia|]. split; [apply entry_then_all; exact N|]. auto.
    - destruct F as [s' NX E|i0 n0 j s' E B A J X].
      + rewrite SL in E, NX. cbn [stmt_execute stmt_is_exit] in E, NX. destruct (pl_exec _ _ _ PL _ _ _ _ OK HS) as (s1 & E1 & FT). destruct (FT NX) as (x & j & IX & OF & HX). rewrite E in E1. injection E1 as <-.
        replace (Z.of_nat n + 1) with (Z.of_nat (Datatypes.S n)) by lia. eapply first_state; [|exact HX]. eapply NXT; eassumption.
      + rewrite SL in E. injection E as <-. destruct (pl_branch _ _ _ PL _ _ _ OK B) as (t & x & j0 & IX & LX & AX & BX). destruct (BX _ HS) as (s1 & E1 & HX). rewrite X in E1. injection E1 as <-.
        rewrite A in AX. injection AX as ->. destruct (item_all_lines _ _ _ _ _ IX) as (k & K & _). pose proof (label_index _ _ _ _ _ _ _ _ _ PL IX LX K L) as Y. fold m0 in Y. rewrite J in Y. injection Y as ->.
        eapply first_state; eassumption. }
  assert (EN : forall j s, entry_at m0 j s -> exists n a c i, nth_error (listing_anns m is) n = Some (AEntry a c i) /\ j = Z.of_nat n + 1 /\ s = estate_of_flags (entry_flags (es_flags (di_cur c)))).
  { intros j s (k & l & d & L & SD & DN & -> & ->). destruct (line_ann _ _ _ _ _ L) as (n & x & -> & N & SL). rewrite SD in SL. exists n. destruct x as [a|a c i|a c i]; cbn in SL; [injection SL as ->; discriminate DN| |discriminate SL].
    injection SL as ->. exists a, c, i. auto. }
  split; [|split; [|split; [exact CL|split]]].
  - intros k s1 s2 (n & x & a & c & i & -> & N & X & H) (n' & x' & a' & c' & i' & E & N' & X' & H'). apply Nat2Z.inj in E. subst n'. rewrite N in N'. injection N' as <-.
    exists n, x, a, c, i. split; [reflexivity|]. split; [exact N|]. split; [exact X|]. apply (pl_merge _ _ _ PL); [exact H|]. assert (c' = c) as -> by (destruct X as [-> | ->]; destruct X' as [Y|Y]; congruence). exact H'.
  - intros k s (n & x & a & c & i & -> & N & X & H). destruct (ann_line "" _ _ _ _ N) as (l & L & SL). fold m0 in L. exists l. split; [exact L|].
    pose proof (all_items _ _ _ (nth_error_In _ _ N)) as OK. destruct X as [-> | ->]; cbn [ann_ok ann_src snd] in OK, SL; rewrite SL.
    + split; [eexists; reflexivity|]. intros i0 E. discriminate E.
    + split; [destruct (pl_exec _ _ _ PL _ _ _ _ OK H) as (s1 & E1 & _); eauto|]. intros i0 E B. injection E as <-. destruct (pl_branch _ _ _ PL _ _ _ OK B) as (t & x & j0 & IX & LX & AX & BX).
      destruct (BX _ H) as (s1 & E1 & _). destruct (item_all_lines _ _ _ _ _ IX) as (k & K & _). exists (di_label x), (Z.of_nat k), s1. split; [exact AX|]. split; [|exact E1]. eapply label_index; eassumption.
  - intros j s H. destruct (EN _ _ H) as (n & a & c & i & N & -> & ->). exists (Datatypes.S n), (AInstr a c i), a, c, i. split; [lia|]. split; [apply entry_then_all; exact N|]. split; [auto|].
    pose proof (all_items _ _ _ (nth_error_In _ _ N)) as [IT DE]. eapply pl_entry; eassumption.
  - (* every line is reached *)
    assert (V : forall a, visited m is a -> forall c i k, nth_error (listing_anns m is) k = Some (AInstr a c i) -> lpath m0 (Z.of_nat k)).
    { assert (FST : forall a c i n, nth_error (listing_anns m is) n = Some (first_ann a c i) -> lpath m0 (Z.of_nat n) -> forall c' i' k, nth_error (listing_anns m is) k = Some (AInstr a c' i') -> lpath m0 (Z.of_nat k)).
      { intros a c i n N LP c' i' k K. unfold first_ann in N. destruct (di_entry c).
        - pose proof (entry_then_all _ _ _ _ _ _ N) as N2. assert (k = Datatypes.S n) as -> by (eapply line_once_all; [exact (pl_sorted _ _ _ PL)|exact K|exact N2]).
          destruct (ann_line "" _ _ _ _ N) as (l & L & SL). replace (Z.of_nat (Datatypes.S n)) with (Z.of_nat n + 1) by lia. eapply lp_next; [exact LP|exact L|]. rewrite SL. reflexivity.
        - assert (k = n) as -> by (eapply line_once_all; [exact (pl_sorted _ _ _ PL)|exact K|exact N]). exact LP. }
      intros a VI. induction VI as [a c i IT DE|a c i VI IH IT NX OF|a c i t x j VI IH IT B IX LX AX]; intros c' i' k K.
      - destruct (item_all_lines _ _ _ _ _ IT) as (n & N & N2). unfold first_ann in N. rewrite DE in N, N2. assert (k = Datatypes.S n) as -> by (eapply line_once_all; [exact (pl_sorted _ _ _ PL)|exact K|exact N2]).
        destruct (ann_line "" _ _ _ _ N) as (l & L & SL). eapply lp_entry. exists (Z.of_nat n), l, (Directive D_entry None (entry_flags (es_flags (di_cur c))) RC_default []).
        split; [exact L|]. split; [exact SL|]. split; [reflexivity|]. split; [lia|reflexivity].
      - destruct (item_all_lines _ _ _ _ _ IT) as (n0 & _ & N). set (n := if di_entry c then Datatypes.S n0 else n0) in *. specialize (IH _ _ _ N). destruct (ann_line "" _ _ _ _ N) as (l & L & SL).
        pose proof (all_items _ _ _ (nth_error_In _ _ K)) as IK. cbn in IK.
        pose proof (NXT _ _ _ _ _ _ N IK OF) as N2. eapply FST; [exact N2| |exact K].
        replace (Z.of_nat (Datatypes.S n)) with (Z.of_nat n + 1) by lia. eapply lp_next; [exact IH|exact L|]. rewrite SL. exact NX.
      - destruct (item_all_lines _ _ _ _ _ IT) as (n0 & _ & N). set (n := if di_entry c then Datatypes.S n0 else n0) in *. specialize (IH _ _ _ N). destruct (ann_line "" _ _ _ _ N) as (l & L & SL).
        destruct (item_all_lines _ _ _ _ _ IX) as (k2 & K2 & _). eapply FST; [exact K2| |exact K]. eapply (lp_branch m0 (Z.of_nat n) l i (di_label x)); [exact IH|exact L|exact SL|exact B|exact AX|]. eapply label_index; eassumption. }
    intros a c i k K. eapply V; [|exact K]. eapply pl_visited; [exact PL|]. exact (all_items _ _ _ (nth_error_In _ _ K)).
Qed.

(** ** The passes. *)
Definition ready (l : line) (x : ann) : Prop := ln_stmt l = snd (ann_src (fun _ => SInstr) x) /\
  forall a c i, x = AInstr a c i -> ln_reached l = true /\ fix_addressing_mode i (es_flags (ln_in l)) = Ok (with_mode (i_mode (di_instr c)) i).
Lemma fix_anns : forall ls xs, Forall2 ready ls xs -> exists ls', fix_modes ls = Ok ls' /\ map ln_stmt ls' = map (fun x => snd (ann_src with_own x)) xs.
Proof.
  intros ls xs F. induction F as [|l x ls xs [S R] F (ls' & E & ST)]; [exists []; auto|]. cbn [fix_modes map]. rewrite S. destruct x as [a|a c i|a c i]; cbn [ann_src snd org_stmt entry_stmt bind].
  - rewrite E. cbn [bind]. eexists. split; [reflexivity|]. cbn [map]. rewrite S, ST. reflexivity.
  - rewrite E. cbn [bind]. eexists. split; [reflexivity|]. cbn [map]. rewrite S, ST. reflexivity.
  - destruct (R _ _ _ eq_refl) as [RE FX]. rewrite RE. cbn [negb]. rewrite FX. cbn [bind]. rewrite E. cbn [bind]. eexists. split; [reflexivity|]. cbn [map ln_with_stmt ln_stmt]. rewrite ST. reflexivity.
Qed.
Definition ann_addr (x : ann) : Z := match x with AOrg a => a | AEntry a _ _ => a | AInstr a _ _ => a end.
Inductive laid : Z -> list ann -> Prop :=
| la_nil : forall pc, laid pc []
| la_org : forall pc a xs, laid a xs -> laid pc (AOrg a :: xs)
| la_entry : forall pc c i xs, laid pc xs -> laid pc (AEntry pc c i :: xs)
| la_instr : forall pc c i xs, laid (add_wrapped pc (instr_size (di_instr c))) xs -> laid pc (AInstr pc c i :: xs).
Lemma anns_laid : forall m is pc, laid pc (ann_of pc m is).
Proof.
  induction m as [|[a c] m IH]; intros [|i is] pc; try constructor. cbn [ann_of].
  assert (X : laid a (item_anns a c i ++ ann_of (add_wrapped a (instr_size (di_instr c))) m is)) by (unfold item_anns; destruct (di_entry c); cbn [app]; repeat constructor; apply IH).
  destruct (Z.eqb_spec a pc) as [<-|N]; [exact X|]. constructor. exact X.
Qed.
Lemma label_24 : forall a, addr24 a -> label_of_address a = a.
Proof.
  intros a A. unfold label_of_address, addr_bank, addr_low, addr24 in *. rewrite Z.shiftr_div_pow2, Z.shiftl_mul_pow2 by lia.
  change 0xffff with (Z.ones 16). rewrite Z.land_ones by lia. rewrite (lor_disjoint 16) by (change (2 ^ 16) with 65536; Z.div_mod_to_equations; lia). change (2 ^ 16) with 65536. Z.div_mod_to_equations. lia.
Qed.
Lemma wrapped_0 : forall a, addr24 a -> add_wrapped a 0 = a.
Proof. intros a A. rewrite add_wrapped_spec by exact A. apply RelistProofs.plus_0. exact A. Qed.
Lemma layout_anns : forall xs pc ls, laid pc xs -> addr24 pc -> (forall x, In x xs -> addr24 (ann_addr x)) ->
  (forall a c i, In (AInstr a c i) xs -> i_mnem i = i_mnem (di_instr c)) -> map ln_stmt ls = map (fun x => snd (ann_src with_own x)) xs ->
  exists ls', layout (Some pc) ls = Ok ls' /\ Forall2 (fun l x => ln_stmt l = snd (ann_src with_own x) /\ ln_value l = Some (ann_addr x)) ls' xs.
Proof.
  intros xs pc ls LA. revert ls. induction LA as [pc|pc a xs LA IH|pc c i xs LA IH|pc c i xs LA IH]; intros [|l ls] A AA MN ST; try discriminate ST.
  - exists []. auto.
  - injection ST as SL ST. pose proof (AA _ (or_introl eq_refl)) as A1. cbn in A1. destruct (IH ls A1) as (ls' & E & F); [intros x IN; apply AA; right; exact IN|intros a0 c0 i0 IN; apply (MN a0); right; exact IN|exact ST|].
    cbn [layout]. rewrite SL. cbn [ann_src snd org_stmt d_name d_arg]. rewrite (org_eval_ok a A1). cbn [bind]. change (stmt_size (SDir (Directive D_org (Some (ELit a T_long)) default_flags RC_default []))) with 0.
    rewrite wrapped_0 by exact A1. rewrite E. cbn [bind]. eexists. split; [reflexivity|]. constructor; [|exact F]. change (stmt_is_dir D_equ _) with false. cbn [ln_with_value ln_stmt ln_value]. rewrite label_24 by exact A1. auto.
  - injection ST as SL ST. destruct (IH ls A) as (ls' & E & F); [intros x IN; apply AA; right; exact IN|intros a0 c0 i0 IN; apply (MN a0); right; exact IN|exact ST|].
    cbn [layout]. rewrite SL. cbn [ann_src snd entry_stmt d_name bind]. change (stmt_size (SDir (Directive D_entry None (entry_flags (es_flags (di_cur c))) RC_default []))) with 0.
    rewrite wrapped_0 by exact A. rewrite E. cbn [bind]. eexists. split; [reflexivity|]. constructor; [|exact F]. change (stmt_is_dir D_equ _) with false. cbn [ln_with_value ln_stmt ln_value]. rewrite label_24 by exact A. auto.
  - injection ST as SL ST. assert (A2 : addr24 (add_wrapped pc (instr_size (di_instr c)))) by (apply add_wrapped_24; unfold addr24 in A; lia).
    destruct (IH ls A2) as (ls' & E & F); [intros x IN; apply AA; right; exact IN|intros a0 c0 i0 IN; apply (MN a0); right; exact IN|exact ST|].
    assert (SZ : stmt_size (with_own c i) = instr_size (di_instr c)).
    { unfold with_own. cbn [stmt_size]. unfold instr_size, with_mode. cbn [i_mode i_mnem]. rewrite (MN pc c i (or_introl eq_refl)). reflexivity. }
    cbn [layout]. rewrite SL. cbn [ann_src snd]. rewrite SZ. unfold with_own at 1. cbn [bind]. rewrite E. cbn [bind]. eexists. split; [reflexivity|]. constructor; [|exact F].
    change (stmt_is_dir D_equ (with_own c i)) with false. cbn [ln_with_value ln_stmt ln_value]. rewrite label_24 by exact A. auto.
Qed.
Lemma places_anns : forall ctx xs ls b, Forall2 (fun l x => ln_stmt l = snd (ann_src with_own x) /\ ln_value l = Some (ann_addr x)) ls xs ->
  (forall x, In x xs -> addr24 (ann_addr x)) ->
  (forall l a c i, In l ls -> In (AInstr a c i) xs -> i_mnem i = i_mnem (di_instr c) /\ 0 < instr_size (di_instr c) /\ offset_of a + instr_size (di_instr c) <= 65536 /\
     (exists bytes, instr_bytes a (ctx (ln_scopes l)) (with_mode (i_mode (di_instr c)) i) = Ok bytes) /\ exists t, far_branch_target (with_mode (i_mode (di_instr c)) i) a = Ok t) ->
  (forall a c i, In (AInstr a c i) xs -> b <= a) ->
  (forall xs1 xs2 a c i a' c' i', xs = xs1 ++ AInstr a c i :: xs2 -> In (AInstr a' c' i') xs2 -> a + instr_size (di_instr c) <= a') ->
  places ctx b ls.
Proof.
  intros ctx xs ls b F. revert b. induction F as [|l x ls xs [S V] F IH]; intros b A H B OR; [exact Logic.I|]. cbn [places]. rewrite S.
  assert (REC : forall b, (forall a c i, In (AInstr a c i) xs -> b <= a) -> places ctx b ls).
  { intros b' B'. apply IH; [intros y IN; apply A; right; exact IN|intros l' a c i I1 I2; apply H; right; assumption|exact B'|].
    intros xs1 xs2 a c i a' c' i' E. apply (OR (x :: xs1) xs2 a c i a' c' i'). rewrite E. reflexivity. }
  destruct x as [a|a c i|a c i]; cbn [ann_src snd org_stmt entry_stmt d_name d_ret].
  - split; [left; reflexivity|]. apply REC. intros a' c i IN. apply (B a' c i). right. exact IN.
  - split; [right; split; [reflexivity|]; split; [reflexivity|]; exists a; split; [exact V|apply (A _ (or_introl eq_refl))]|]. apply REC. intros a' c' i' IN. apply (B a' c' i'). right. exact IN.
  - destruct (H l a c i (or_introl eq_refl) (or_introl eq_refl)) as (MN & SZ & OF & (bytes & IB) & (t & FT)).
    assert (E : instr_size (with_mode (i_mode (di_instr c)) i) = instr_size (di_instr c)) by (unfold instr_size, with_mode; cbn [i_mode i_mnem]; rewrite MN; reflexivity).
    unfold with_own. exists a, bytes, t. rewrite E. split; [exact V|]. split; [apply (A _ (or_introl eq_refl))|]. split; [exact SZ|]. split; [exact IB|]. split; [exact FT|].
    split; [apply (B a c i); left; reflexivity|]. split; [exact OF|]. apply REC. intros a' c' i' IN. apply (OR [] xs a c i a' c' i'); [reflexivity|exact IN].
Qed.
Lemma anns_order : forall m is pc xs1 xs2 a c i a' c' i', sorted_keys m -> packed m -> ann_of pc m is = xs1 ++ AInstr a c i :: xs2 -> In (AInstr a' c' i') xs2 -> a + instr_size (di_instr c) <= a'.
Proof.
  intros m is pc xs1 xs2 a c i a' c' i' SO PK E IN.
  assert (IA : In (a, c) m) by (apply (item_in m is a c i); apply (ann_items m is pc (AInstr a c i)); rewrite E; apply in_or_app; right; left; reflexivity).
  assert (IA' : In (a', c') m) by (apply (item_in m is a' c' i'); apply (ann_items m is pc (AInstr a' c' i')); rewrite E; apply in_or_app; right; right; exact IN).
  apply (PK a c a' c' IA IA'). clear IA IA' PK. revert is pc xs1 E SO. induction m as [|[b x] m IH]; intros [|j is] pc xs1 E SO; try (destruct xs1; discriminate E).
  destruct SO as [S0 SO]. cbn [ann_of] in E.
  assert (POST : forall ys, ann_of (add_wrapped b (instr_size (di_instr x))) m is = ys ++ AInstr a c i :: xs2 -> a < a') by (intros ys Y; eapply IH; eassumption).
  assert (HERE : ann_of (add_wrapped b (instr_size (di_instr x))) m is = xs2 -> a = b -> a < a').
  { intros <- ->. apply ann_items in IN. apply item_in in IN. exact (S0 _ _ IN). }
  unfold item_anns in E. destruct (b =? pc), (di_entry x); cbn [app] in E; repeat (destruct xs1 as [|? xs1]; cbn [app] in E; [try discriminate E; injection E as <- <- <- E; apply HERE; auto|injection E as <- E]); eapply POST; exact E.
Qed.

(** ** Such listings assemble. *)
Lemma pairwise : forall A B (R : A -> B -> Prop) l l', List.length l = List.length l' -> (forall n x y, nth_error l n = Some x -> nth_error l' n = Some y -> R x y) -> Forall2 R l l'.
Proof.
  intros A B R. induction l as [|x l IH]; intros [|y l'] L H; try discriminate L; constructor; [apply (H O); reflexivity|]. apply IH; [cbn in L; lia|]. intros n. apply (H (Datatypes.S n)).
Qed.
Lemma paired : forall A B (R : A -> B -> Prop) l l' n x y, Forall2 R l l' -> nth_error l n = Some x -> nth_error l' n = Some y -> R x y.
Proof. intros A B R l l' n x y F. revert n. induction F as [|a b l l' H F IH]; intros [|n] X Y; try discriminate X; [cbn in X, Y; injection X as <-; injection Y as <-; exact H|]. exact (IH n X Y). Qed.
Lemma plan_assembles : forall St out m is, Forall comment out -> plan St m is -> exists N, forall fuel, (N <= fuel)%nat -> forall sk, (forall ws w, sk ws w = Ok tt) ->
  exists ws asm, assemble fuel sk [out ++ ModelTools.listing m] = (ws, Ok asm).
Proof.
  intros St out m is CM PL. destruct (plan_runs _ _ _ PL) as (MG & RU & CL & EN & LP). set (m0 := module_of "" (listing_src (fun _ => SInstr) m is)) in *.
  destruct (first_pass_accepts m0 "" _ _ eq_refl MG RU CL EN) as (N & ACC). exists N. intros fuel LE sk SK. destruct (ACC fuel LE) as (ls & FL & CO & RE).
  pose proof (listing_loads _ _ _ CM (pl_shows _ _ _ PL) (pl_sorted _ _ _ PL) (pl_unique _ _ _ PL)) as LD. fold m0 in LD.
  pose proof (proj2 (comments_read out _ _ CM) (listing_read _ _ (pl_shows _ _ _ PL))) as RD. set (xs := listing_anns m is) in *.
  assert (A24 : forall x, In x xs -> addr24 (ann_addr x)).
  { intros x IN. apply all_items in IN. destruct x as [a|a c i|a c i]; cbn in IN |- *; [destruct IN as [c IN]|destruct IN as [IN _]; apply item_in in IN|apply item_in in IN]; (eapply shown_24; [exact (pl_shows _ _ _ PL)|exact IN]). }
  assert (ITM : forall a c i, In (AInstr a c i) xs -> item m is a c i) by (intros a c i IN; exact (all_items _ _ _ IN)).
  assert (LEN : List.length ls = List.length xs).
  { apply (f_equal (@List.length _)) in CO. rewrite !map_length in CO. rewrite CO. unfold m0. change (md_lines (module_of "" (listing_src (fun _ => SInstr) m is))) with (mk_lines (dlist (listing_src (fun _ => SInstr) m is)) 0 [] (listing_src (fun _ => SInstr) m is)).
    rewrite <- (map_length ln_stmt), mk_lines_stmts, map_length, listing_anns_src, map_length. reflexivity. }
  assert (RDY : Forall2 ready ls xs).
  { apply pairwise; [exact LEN|]. intros n l x NL NX. rewrite nat_znth in NL. destruct (core_nth _ _ _ _ CO NL) as (l0 & L0 & C0). unfold core2 in C0. injection C0 as C1 C2.
    destruct (ann_line "" _ _ _ _ NX) as (l1 & L1 & SL). fold m0 in L1. assert (l1 = l0) as -> by congruence. split; [congruence|]. intros a c i ->. destruct (RE _ _ NL) as [R1 R2]. specialize (R1 (LP _ _ _ _ NX)). split; [exact R1|].
    destruct (R2 R1) as (n' & x' & a' & c' & i' & E & NX' & X' & HS). apply Nat2Z.inj in E. subst n'. fold xs in NX'. rewrite NX in NX'. injection NX' as <-. destruct X' as [X'|X']; [discriminate X'|]. injection X' as <- <- <-.
    eapply pl_mode; [exact PL|apply ITM; eapply nth_error_In; exact NX|exact HS]. }
  destruct (fix_anns _ _ RDY) as (ls2 & FX & ST2).
  assert (LAY : exists ls3, layout None ls2 = Ok ls3 /\ Forall2 (fun l x => ln_stmt l = snd (ann_src with_own x) /\ ln_value l = Some (ann_addr x)) ls3 xs).
  { assert (MN : forall a c i, In (AInstr a c i) xs -> i_mnem i = i_mnem (di_instr c)) by (intros a c i IN; eapply pl_size; [exact PL|apply ITM; exact IN]).
    unfold xs in *. clear - ST2 A24 MN. destruct m as [|[a c] m]; [cbn in ST2; destruct ls2; [|discriminate ST2]; exists []; split; [reflexivity|constructor]|].
    assert (A : addr24 a) by (apply (A24 (AOrg a)); left; reflexivity).
    destruct ls2 as [|l ls2]; [discriminate ST2|]. destruct (layout_anns (listing_anns ((a, c) :: m) is) a (l :: ls2)) as (ls3 & E & F); [|exact A|exact A24|exact MN|exact ST2|].
    { constructor. apply anns_laid. }
    exists ls3. split; [|exact F]. rewrite <- E. unfold listing_anns in ST2. cbn [map ann_src snd] in ST2. injection ST2 as SL ST2. cbn [layout]. rewrite SL. cbn [org_stmt d_name d_arg]. rewrite (org_eval_ok a A). reflexivity. }
  destruct LAY as (ls3 & LY & F3). set (m1 := md_with_lines ls3 m0).
  assert (FP : run_first_pass fuel m0 = Ok m1) by (unfold run_first_pass; rewrite FL; cbn [bind]; rewrite FX; cbn [bind]; rewrite LY; reflexivity).
  assert (S3 : map ln_stmt ls3 = map (fun x => snd (ann_src with_own x)) xs) by (clear - F3; induction F3 as [|l x ls xs [S _] F IH]; [reflexivity|]; cbn [map]; rewrite S, IH; reflexivity).
  assert (SIM : forall mk, (forall c i, exists j, mk c i = SInstr j) -> Forall simple (map (fun x => snd (ann_src mk x)) xs)).
  { intros mk MK. apply Forall_forall. intros s IN. apply in_map_iff in IN. destruct IN as (x & <- & IN). destruct x as [a|a c i|a c i]; cbn [ann_src snd]; [apply si_org; exact (A24 _ IN)|apply si_entry|]. destruct (MK c i) as (j & ->). apply si_instr. }
  assert (LN3 : List.length ls3 = List.length xs) by (apply (f_equal (@List.length _)) in S3; rewrite !map_length in S3; exact S3).
  apply (single_accepts fuel sk _ m0 m1 SK LD).
  - change (md_lines m0) with (mk_lines (dlist (listing_src (fun _ => SInstr) m is)) 0 [] (listing_src (fun _ => SInstr) m is)). rewrite mk_lines_stmts, listing_anns_src, map_map. apply SIM. eauto.
  - exact FP.
  - cbn [m1 md_lines md_with_lines]. rewrite S3. apply SIM. exact own_instr.
  - cbn [m1 md_lines md_with_lines]. intros l IN. apply In_nth_error in IN. destruct IN as (n & NL). assert (X : exists x, nth_error xs n = Some x).
    { destruct (nth_error xs n) eqn:E; [eauto|]. apply nth_error_None in E. assert (n < List.length ls3)%nat by (apply nth_error_Some; congruence). lia. }
    destruct X as (x & NX). destruct (paired _ _ _ _ _ _ _ _ F3 NL NX) as [_ V]. exists (ann_addr x). split; [exact V|]. apply A24. eapply nth_error_In. exact NX.
  - intros ext. eapply places_anns; [exact F3|exact A24| | |].
    + intros l a c i IL IX. specialize (ITM _ _ _ IX). destruct (pl_size _ _ _ PL _ _ _ ITM) as [MN SZ]. split; [exact MN|]. split; [exact SZ|]. split; [apply (pl_inside _ _ _ PL); eapply item_in; exact ITM|]. split; [|eapply pl_far; [exact PL|exact ITM]].
      eapply pl_bytes; [exact PL|exact ITM|]. intros b y IY LY0.
      assert (IJ : exists j, item m is b y j).
      { clear - IY PL. pose proof (pl_shows _ _ _ PL) as F. clear PL. unfold item. induction F as [|kv j m is S F IH]; [destruct IY|]. cbn [combine]. destruct IY as [->|IY]; [exists j; left; reflexivity|]. destruct (IH IY) as [j' J]. exists j'. right. exact J. }
      destruct IJ as (j & IJ). destruct (item_all_lines _ _ _ _ _ IJ) as (t & NT & _). apply In_nth_error in IL. destruct IL as (k & NK).
      assert (K : (k <= List.length xs)%nat) by (rewrite <- LN3; apply Nat.lt_le_incl; apply nth_error_Some; change ls3 with (md_lines m1); congruence).
      pose proof (listing_denotes _ _ _ _ _ k t IJ LY0 NT K) as DN.
      destruct (values_denote _ _ m1 _ k l (di_label y) ext LD RD (first_pass_scopes _ _ _ FP) NK) as [V _]. destruct (V _ DN) as (l' & L' & E). rewrite E. cbn [m1 md_lines md_with_lines] in L'. rewrite Nat2Z.id in L'.
      destruct (paired _ _ _ _ _ _ _ _ F3 L' NT) as [_ V']. rewrite V'. f_equal. unfold first_ann. destruct (di_entry y); reflexivity.
    + intros a c i IN. pose proof (A24 _ IN) as X. cbn in X. unfold addr24 in X. lia.
    + intros xs1 xs2 a c i a' c' i' E IN. unfold xs in E. destruct m as [|[a0 c0] m]; [destruct xs1; discriminate E|]. unfold listing_anns in E. destruct xs1 as [|x xs1]; [discriminate E|]. cbn [app] in E. injection E as <- E.
      eapply anns_order; [exact (pl_sorted _ _ _ PL)|exact (pl_apart _ _ _ PL)|exact E|exact IN].
Qed.
