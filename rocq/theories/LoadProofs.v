(** Proofs about loading a source file. *)
From Verif Require Import BaseProofs ModelMnemonic ModelExpr ModelInstr ModelState ModelStatement ModelToken
  ModelParse ModelMap ModelRanges ModelModule MapProofs SpecScope OrderProofs.
Open Scope list_scope.

(** ** The stack of open blocks as a function of the statements. *)
Definition push (i : Z) (s : statement) (sc : list Z) : list Z :=
  match s with
  | SDir d => match d_name d with D_begin => i :: sc | D_end => tl sc | _ => sc end
  | SInstr _ => sc
  end.
Fixpoint stack_from (i : Z) (sc : list Z) (ss : list statement) : list Z :=
  match ss with
  | [] => sc
  | s :: ss' => stack_from (i + 1) (push i s sc) ss'
  end.
Definition stack (ss : list statement) : list Z := stack_from 0 [] ss.

Lemma stack_from_app : forall a b i sc,
  stack_from i sc (a ++ b) = stack_from (i + zlen a) (stack_from i sc a) b.
Proof.
  induction a as [|s a IH]; intros b i sc; cbn [app stack_from].
  - rewrite zlen_nil, Z.add_0_r. reflexivity.
  - rewrite IH, zlen_cons. f_equal. lia.
Qed.
Lemma stack_snoc : forall a s, stack (a ++ [s]) = push (zlen a) s (stack a).
Proof. intros. unfold stack. rewrite stack_from_app. reflexivity. Qed.

Lemma nesting_app : forall a b, nesting (a ++ b) = nesting a + nesting b.
Proof.
  induction a as [|[i|d] a IH]; intros b; cbn [app nesting]; [reflexivity|apply IH|]. rewrite IH. lia.
Qed.
Lemma nesting_one : forall s, nesting [s] =
  match s with SDir d => match d_name d with D_begin => 1 | D_end => -1 | _ => 0 end | SInstr _ => 0 end.
Proof. intros [i|d]; cbn; [reflexivity|]. destruct (d_name d); reflexivity. Qed.

(** The block at [b] is open, [p] further blocks having been opened in it. *)
Definition open_deep (before : list statement) (b : Z) (p : Z) : Prop :=
  exists pre s mid, before = pre ++ s :: mid /\ is_dir D_begin s /\ b = zlen pre /\
    (forall m1 m2, mid = m1 ++ m2 -> 0 <= nesting m1) /\ nesting mid = p.

Lemma open_deep_open : forall before b, open_at before b <-> exists p, open_deep before b p.
Proof.
  intros before b. split.
  - intros (pre & s & mid & E & B & L & N). exists (nesting mid), pre, s, mid. auto.
  - intros (p & pre & s & mid & E & B & L & N & _). exists pre, s, mid. auto.
Qed.
Lemma open_deep_nonneg : forall before b p, open_deep before b p -> 0 <= p.
Proof. intros before b p (pre & s & mid & _ & _ & _ & N & <-). apply (N mid []). symmetry. apply app_nil_r. Qed.
Lemma open_deep_nil : forall b p, ~ open_deep [] b p.
Proof. intros b p (pre & s & mid & E & _). destruct pre; discriminate. Qed.

Lemma snoc_cases : forall A (l : list A), l = [] \/ exists l' x, l = l' ++ [x].
Proof. intros A l. destruct l using rev_ind; [left; reflexivity|right; eauto]. Qed.

Lemma open_deep_snoc : forall before s b p, open_deep (before ++ [s]) b p <->
  (b = zlen before /\ is_dir D_begin s /\ p = 0) \/
  (open_deep before b (p - nesting [s]) /\ 0 <= p).
Proof.
  intros before s b p. split.
  - intros (pre & s' & mid & E & B & L & N & P). destruct (snoc_cases _ mid) as [->|(mid' & x & ->)].
    + apply app_inj_tail in E. destruct E as [-> ->]. left. auto.
    + change (pre ++ s' :: mid' ++ [x]) with (pre ++ (s' :: mid') ++ [x]) in E.
      rewrite app_assoc in E. apply app_inj_tail in E. destruct E as [-> ->]. right.
      rewrite nesting_app in P. split.
      * exists pre, s', mid'. repeat split; auto; [|lia]. intros m1 m2 ->. apply (N m1 (m2 ++ [x])).
        rewrite app_assoc. reflexivity.
      * specialize (N (mid' ++ [x]) []). rewrite app_nil_r, nesting_app in N. specialize (N eq_refl). lia.
  - intros [(-> & B & ->)|((pre & s' & mid & -> & B & L & N & P) & Q)].
    + exists before, s, []. repeat split; auto. intros m1 m2 E. symmetry in E. apply app_eq_nil in E.
      destruct E as [-> _]. cbn. lia.
    + exists pre, s', (mid ++ [s]). rewrite <- app_assoc. repeat split; auto.
      * intros m1 m2 E. destruct (snoc_cases _ m2) as [->|(m2' & x & ->)].
        -- rewrite app_nil_r in E. subst m1. rewrite nesting_app. lia.
        -- rewrite app_assoc in E. apply app_inj_tail in E. destruct E as [E _]. apply (N m1 m2'). exact E.
      * rewrite nesting_app. lia.
Qed.

Lemma is_dir_begin : forall s, is_dir D_begin s <-> exists d, s = SDir d /\ d_name d = D_begin.
Proof. reflexivity. Qed.

(** The stack lists the open blocks, the innermost first. *)
Lemma stack_open : forall ss b p, 0 <= p -> (znth (stack ss) p = Some b <-> open_deep ss b p).
Proof.
  induction ss as [|s ss IH] using rev_ind; intros b p Hp.
  - unfold stack. cbn [stack_from]. split; [|intros H; destruct (open_deep_nil _ _ H)].
    unfold znth. destruct (p <? 0); [discriminate|]. destruct (Z.to_nat p); discriminate.
  - rewrite stack_snoc, open_deep_snoc, nesting_one.
    assert (G : forall q, znth (stack ss) q = Some b <-> open_deep ss b q).
    { intros q. destruct (Z.ltb_spec q 0) as [Q|Q]; [|apply IH; lia].
      split; intros H; [apply znth_some in H; lia|apply open_deep_nonneg in H; lia]. }
    clear IH. unfold push. destruct s as [i|d].
    + rewrite G, Z.sub_0_r. split; [right; auto|]. intros [(_ & (d & E & _) & _)|[H _]]; [discriminate|exact H].
    + assert (NB : forall (P : Prop), d_name d <> D_begin -> ~ (P /\ is_dir D_begin (SDir d) /\ p = 0)).
      { intros P H (_ & (d' & E & E') & _). injection E as ->. contradiction. }
      destruct (d_name d) eqn:D;
        try (rewrite G, Z.sub_0_r; split; [right; auto|]; intros [H|[H _]];
             [destruct (NB _ ltac:(discriminate) H)|exact H]).
      * (* begin *) destruct (Z.eqb_spec p 0) as [->|Hp0].
        -- rewrite znth_cons0. split.
           ++ intros E. injection E as <-. left. repeat split. exists d. auto.
           ++ intros [(-> & _)|[H _]]; [reflexivity|]. apply open_deep_nonneg in H. lia.
        -- rewrite znth_cons by lia. rewrite G. split; [right; auto|]. intros [(_ & _ & ?)|[H _]]; [lia|exact H].
      * (* end *) replace (p - -1) with (p + 1) by lia. rewrite <- G.
        assert (T : znth (tl (stack ss)) p = znth (stack ss) (p + 1)).
        { destruct (stack ss) as [|x l]; cbn [tl].
          - transitivity (@None Z); [|symmetry]; apply znth_none; unfold zlen; cbn; lia.
          - rewrite znth_cons by lia. f_equal. lia. }
        rewrite T. split; [right; auto|]. intros [H|[H _]]; [destruct (NB _ ltac:(discriminate) H)|exact H].
Qed.

Lemma stack_in : forall ss b, In b (stack ss) <-> open_at ss b.
Proof.
  intros ss b. rewrite open_deep_open. split.
  - intros H. apply in_znth in H. destruct H as [i H]. exists i. apply stack_open; [|exact H].
    apply znth_some in H. lia.
  - intros [p H]. pose proof (open_deep_nonneg _ _ _ H). apply stack_open in H; [|assumption].
    eapply znth_in. eassumption.
Qed.

(** Positions decrease from the top of the stack. *)
Fixpoint decreasing (n : Z) (sc : list Z) : Prop :=
  match sc with
  | [] => True
  | b :: sc' => 0 <= b < n /\ decreasing b sc'
  end.
Lemma decreasing_weaken : forall sc n m, decreasing n sc -> n <= m -> decreasing m sc.
Proof. intros [|b sc] n m H L; cbn in *; [exact I|]. split; [lia|apply H]. Qed.
Lemma decreasing_in : forall sc n b, decreasing n sc -> In b sc -> 0 <= b < n.
Proof.
  induction sc as [|c sc IH]; intros n b D H; [destruct H|]. cbn in D. destruct D as [D1 D2].
  destruct H as [->|H]; [exact D1|]. specialize (IH _ _ D2 H). lia.
Qed.
Lemma stack_decreasing : forall ss, decreasing (zlen ss) (stack ss).
Proof.
  induction ss as [|s ss IH] using rev_ind; [exact I|].
  rewrite stack_snoc, zlen_app, zlen_cons, zlen_nil. pose proof (zlen_nonneg _ ss) as Z0.
  assert (W : decreasing (zlen ss + (1 + 0)) (stack ss)) by (eapply decreasing_weaken; [exact IH|lia]).
  unfold push. destruct s as [i|d]; [exact W|]. destruct (d_name d); try exact W.
  - cbn. split; [lia|exact IH].
  - destruct (stack ss) as [|b l]; [exact I|]. cbn [tl]. cbn in IH. eapply decreasing_weaken; [apply IH|lia].
Qed.
Lemma stack_top : forall ss b rest, stack ss = b :: rest ->
  open_at ss b /\ forall b', open_at ss b' -> b' <= b.
Proof.
  intros ss b rest E. split; [apply stack_in; rewrite E; left; reflexivity|].
  intros b' H. apply stack_in in H. pose proof (stack_decreasing ss) as D. rewrite E in D, H. cbn in D.
  destruct H as [->|H]; [lia|]. apply (decreasing_in _ b) in H; [lia|apply D].
Qed.

(** Where a label goes. *)
Definition scope_top (sc : list Z) (x : bool) : option Z :=
  match sc, x with b :: _, false => Some b | _, _ => None end.
Lemma scope_top_exact : forall ss x sc, scope_of ss x sc <-> sc = scope_top (stack ss) x.
Proof.
  intros ss x sc. unfold scope_top. destruct (stack ss) as [|b rest] eqn:E.
  - assert (NO : forall b, ~ open_at ss b) by (intros b H; apply stack_in in H; rewrite E in H; exact H).
    destruct sc as [b|]; cbn; split; try discriminate; auto. intros (_ & H & _). destruct (NO _ H).
  - destruct (stack_top _ _ _ E) as [T1 T2]. destruct x.
    + destruct sc as [c|]; cbn; split; try discriminate; auto. intros (H & _). discriminate.
    + destruct sc as [c|]; cbn; split.
      * intros (_ & H1 & H2). specialize (T2 _ H1). specialize (H2 _ T1). f_equal. lia.
      * intros H. injection H as ->. auto.
      * intros [H|H]; [discriminate|]. destruct (H b T1).
      * discriminate.
Qed.

(** Balance. *)
Lemma stack_length : forall ss, (forall a b, ss = a ++ b -> 0 <= nesting a) -> zlen (stack ss) = nesting ss.
Proof.
  induction ss as [|s ss IH] using rev_ind; intros H; [reflexivity|].
  rewrite stack_snoc, nesting_app, nesting_one.
  assert (IH' : zlen (stack ss) = nesting ss).
  { apply IH. intros a b ->. apply (H a (b ++ [s])). rewrite app_assoc. reflexivity. }
  pose proof (H (ss ++ [s]) [] (eq_sym (app_nil_r _))) as N. rewrite nesting_app, nesting_one in N.
  unfold push. destruct s as [i|d]; [lia|]. destruct (d_name d); try lia.
  - rewrite zlen_cons. lia.
  - destruct (stack ss) as [|b l]; cbn [tl]; rewrite ?zlen_cons, ?zlen_nil in *; lia.
Qed.

(** ** The loaded module as a function of the source. *)
Definition definition := (option Z * string * Z)%type.
Definition scope_eqb (a b : option Z) : bool :=
  match a, b with Some x, Some y => x =? y | None, None => true | _, _ => false end.
Lemma scope_eqb_eq : forall a b, scope_eqb a b = true <-> a = b.
Proof. intros [x|] [y|]; cbn; rewrite ?Z.eqb_eq; split; congruence. Qed.
Lemma scope_eqb_refl : forall a, scope_eqb a a = true.
Proof. intros. apply scope_eqb_eq. reflexivity. Qed.

Definition in_scope (sc : option Z) (d : list definition) : list (string * Z) :=
  flat_map (fun '(sc', n, t) => if scope_eqb sc sc' then [(n, t)] else []) d.
Definition keys (d : list definition) : list (option Z * string) := map fst d.

Lemma in_scope_in : forall sc d n t, In (n, t) (in_scope sc d) <-> In (sc, n, t) d.
Proof.
  intros sc d n t. unfold in_scope. rewrite in_flat_map. split.
  - intros ([[sc' n'] t'] & H & I). destruct (scope_eqb sc sc') eqn:E; [|destruct I].
    apply scope_eqb_eq in E. subst. destruct I as [I|[]]. injection I as -> ->. exact H.
  - intros H. exists (sc, n, t). split; [exact H|]. rewrite scope_eqb_refl. left. reflexivity.
Qed.
Lemma in_scope_app : forall sc d1 d2, in_scope sc (d1 ++ d2) = in_scope sc d1 ++ in_scope sc d2.
Proof. intros. apply flat_map_app. Qed.
Lemma assoc_in_scope : forall sc d n,
  match assoc_string n (in_scope sc d) with
  | Some t => In (sc, n, t) d
  | None => ~ In (sc, n) (keys d)
  end.
Proof.
  intros sc d n. unfold keys. induction d as [|[[sc' n'] t'] d IH]; [cbn; tauto|].
  change (in_scope sc ((sc', n', t') :: d)) with ((if scope_eqb sc sc' then [(n', t')] else []) ++ in_scope sc d).
  cbn [map fst]. destruct (scope_eqb sc sc') eqn:E; cbn [app assoc_string In].
  - apply scope_eqb_eq in E. subst sc'. destruct (String.eqb_spec n n') as [->|N].
    + left. reflexivity.
    + destruct (assoc_string n (in_scope sc d)); [right; exact IH|]. intros [X|X]; [congruence|contradiction].
  - destruct (assoc_string n (in_scope sc d)); [right; exact IH|]. intros [X|X]; [|contradiction].
    injection X as -> ->. rewrite scope_eqb_refl in E. discriminate.
Qed.
Lemma keys_app : forall d1 d2, keys (d1 ++ d2) = keys d1 ++ keys d2.
Proof. intros. apply map_app. Qed.
Lemma assoc_in_scope_iff : forall sc d n t, NoDup (keys d) ->
  (assoc_string n (in_scope sc d) = Some t <-> In (sc, n, t) d).
Proof.
  intros sc d n t N. pose proof (assoc_in_scope sc d n) as A.
  destruct (assoc_string n (in_scope sc d)) as [t'|].
  - split; [intros E; injection E as ->; exact A|]. intros H. f_equal.
    clear -N A H. induction d as [|[k v] d IH]; [destruct H|]. cbn in N. inversion N as [|? ? N1 N2]; subst.
    destruct A as [A|A], H as [H|H].
    + congruence.
    + injection A as -> ->. exfalso. apply N1. apply in_map_iff. exists (sc, n, t). auto.
    + injection H as -> ->. exfalso. apply N1. apply in_map_iff. exists (sc, n, t'). auto.
    + auto.
  - split; [discriminate|]. intros H. exfalso. apply A. apply in_map_iff. exists (sc, n, t). auto.
Qed.

Definition label_defs (sc : list Z) (i : Z) (labels : list (string * bool)) : list definition :=
  map (fun nx => (scope_top sc (snd nx), fst nx, i)) labels.
Fixpoint dlist_from (i : Z) (sc : list Z) (src : source) : list definition :=
  match src with
  | [] => []
  | (labels, s) :: src' => label_defs sc i labels ++ dlist_from (i + 1) (push i s sc) src'
  end.
Definition dlist (src : source) : list definition := dlist_from 0 [] src.

Fixpoint mk_lines (d : list definition) (i : Z) (sc : list Z) (src : source) : list line :=
  match src with
  | [] => []
  | (labels, s) :: src' =>
      Line s (map fst labels) false default_estate None sc (in_scope (Some i) d)
      :: mk_lines d (i + 1) (push i s sc) src'
  end.
Definition closed (name : string) (src : source) : module :=
  MkModule name (mk_lines (dlist src) 0 [] src) [] (in_scope None (dlist src)) [] [] [] [].

Lemma dlist_from_app : forall a b i sc, dlist_from i sc (a ++ b) =
  dlist_from i sc a ++ dlist_from (i + zlen a) (stack_from i sc (map snd a)) b.
Proof.
  induction a as [|[labels s] a IH]; intros b i sc; cbn [app dlist_from map stack_from snd].
  - rewrite zlen_nil, Z.add_0_r. reflexivity.
  - rewrite IH, zlen_cons, <- app_assoc. f_equal. f_equal. f_equal. lia.
Qed.
Lemma dlist_snoc : forall src labels s,
  dlist (src ++ [(labels, s)]) = dlist src ++ label_defs (stack (map snd src)) (zlen src) labels.
Proof. intros. unfold dlist. rewrite dlist_from_app. cbn. rewrite app_nil_r. reflexivity. Qed.
Lemma mk_lines_app : forall d a b i sc, mk_lines d i sc (a ++ b) =
  mk_lines d i sc a ++ mk_lines d (i + zlen a) (stack_from i sc (map snd a)) b.
Proof.
  intros d. induction a as [|[labels s] a IH]; intros b i sc; cbn [app mk_lines map stack_from snd].
  - rewrite zlen_nil, Z.add_0_r. reflexivity.
  - rewrite IH, zlen_cons. f_equal. f_equal. f_equal. lia.
Qed.
Lemma mk_lines_len : forall d src i sc, zlen (mk_lines d i sc src) = zlen src.
Proof. intros d. induction src as [|[labels s] src IH]; intros; cbn [mk_lines]; [reflexivity|]. rewrite !zlen_cons, IH. reflexivity. Qed.
Lemma mk_lines_ext : forall d d' src i sc,
  (forall k, i <= k -> in_scope (Some k) d = in_scope (Some k) d') -> mk_lines d i sc src = mk_lines d' i sc src.
Proof.
  intros d d'. induction src as [|[labels s] src IH]; intros i sc H; cbn; [reflexivity|].
  rewrite H by lia. f_equal. apply IH. intros k K. apply H. lia.
Qed.
Lemma mk_lines_at : forall d before labels s after,
  znth (mk_lines d 0 [] (before ++ (labels, s) :: after)) (zlen before) =
  Some (Line s (map fst labels) false default_estate None (stack (map snd before)) (in_scope (Some (zlen before)) d)).
Proof.
  intros. rewrite mk_lines_app. cbn [mk_lines]. pose proof (mk_lines_len d before 0 []) as L. rewrite Z.add_0_l.
  rewrite znth_app2 by lia. rewrite L, Z.sub_diag. reflexivity.
Qed.
Lemma mk_lines_nth : forall d src k l, znth (mk_lines d 0 [] src) k = Some l ->
  exists before labels s after, src = before ++ (labels, s) :: after /\ zlen before = k /\
    l = Line s (map fst labels) false default_estate None (stack (map snd before)) (in_scope (Some k) d).
Proof.
  intros d src k l H. pose proof (znth_some _ _ _ _ H) as R. rewrite mk_lines_len in R.
  destruct (znth_in_range _ src k R) as [[labels s] E]. destruct (znth_split _ _ _ _ E) as (before & after & -> & L).
  exists before, labels, s, after. subst k. rewrite mk_lines_at in H. injection H as <-. auto.
Qed.
(** One more definition in the block at [b]. *)
Lemma mk_lines_define : forall d b n t src i sc l, i <= b ->
  znth (mk_lines d i sc src) (b - i) = Some l ->
  zset (b - i) (ln_with_locals (ln_locals l ++ [(n, t)]) l) (mk_lines d i sc src) =
  mk_lines (d ++ [(Some b, n, t)]) i sc src.
Proof.
  intros d b n t. induction src as [|[labels s] src IH]; intros i sc l H E.
  - apply znth_some in E. rewrite zlen_nil in E. lia.
  - cbn [mk_lines] in *. destruct (Z.eqb_spec b i) as [->|N].
    + rewrite Z.sub_diag in *. rewrite znth_cons0 in E. injection E as <-. unfold zset. cbn.
      rewrite in_scope_app. cbn. rewrite Z.eqb_refl. f_equal. apply mk_lines_ext. intros k K.
      rewrite in_scope_app. cbn. destruct (Z.eqb_spec k i); [lia|]. rewrite app_nil_r. reflexivity.
    + rewrite znth_cons in E by lia. replace (b - i - 1) with (b - (i + 1)) in E by lia.
      rewrite <- (IH (i + 1) (push i s sc) l) by (lia || exact E).
      rewrite in_scope_app. cbn. destruct (Z.eqb_spec i b); [lia|]. rewrite app_nil_r.
      unfold zset. destruct (Z.ltb_spec (b - i) 0); [lia|]. destruct (Z.ltb_spec (b - (i + 1)) 0); [lia|].
      replace (Z.to_nat (b - i)) with (S (Z.to_nat (b - (i + 1)))) by lia. reflexivity.
Qed.

(** ** Loading. *)
(** The module with definitions [d] while the labels [done] of the next statement [s] have
    been entered. *)
Definition midway (name : string) (d : list definition) (src : source) (done : list string) (s : statement) : module :=
  MkModule name (mk_lines d 0 [] src ++ [Line s done false default_estate None [] []])
    [] (in_scope None d) [] [] [] [].

Definition has_key (k : option Z * string) (d : list definition) : bool :=
  existsb (fun e => scope_eqb (fst k) (fst (fst e)) && String.eqb (snd k) (snd (fst e))) d.
Lemma has_key_in : forall k d, has_key k d = true <-> In k (keys d).
Proof.
  intros [sc n] d. unfold has_key, keys. rewrite existsb_exists, in_map_iff. split.
  - intros ([[sc' n'] t'] & H & E). apply andb_true_iff in E. cbn in E. destruct E as [E1 E2].
    apply scope_eqb_eq in E1. apply String.eqb_eq in E2. subst. exists (sc', n', t'). auto.
  - intros ([k t] & E & H). cbn in E. subst k. exists (sc, n, t). cbn. rewrite scope_eqb_refl, String.eqb_refl. auto.
Qed.

Lemma add_label_spec : forall name d src done s sc n x t, decreasing (zlen src) sc ->
  add_label (midway name d src done s) sc n x t =
  if has_key (scope_top sc x, n) d then Err E_duplicate
  else Ok (midway name (d ++ [(scope_top sc x, n, t)]) src done s).
Proof.
  intros name d src done s sc n x t D.
  assert (A : forall b, assoc_string n (in_scope b d) = None <-> has_key (b, n) d = false).
  { intros b. pose proof (assoc_in_scope b d n) as A. destruct (has_key (b, n) d) eqn:K.
    - apply has_key_in in K. destruct (assoc_string n (in_scope b d)); [split; discriminate|contradiction].
    - split; [reflexivity|]. intros _. destruct (assoc_string n (in_scope b d)); [|reflexivity].
      assert (has_key (b, n) d = true); [|congruence]. apply has_key_in, in_map_iff. exists (b, n, z). auto. }
  assert (G : scope_top sc x = None -> add_label (midway name d src done s) sc n x t =
    match assoc_string n (in_scope None d) with
    | Some _ => Err E_duplicate
    | None => Ok (md_with_globals (in_scope None d ++ [(n, t)]) (midway name d src done s))
    end).
  { unfold add_label. destruct sc; [reflexivity|]. destruct x; [reflexivity|discriminate]. }
  destruct (scope_top sc x) as [b|] eqn:T.
  - clear G. unfold scope_top in T. destruct sc as [|b' sc']; [discriminate|]. destruct x; [discriminate|].
    injection T as ->. cbn in D. destruct D as [D _]. unfold add_label. cbn [midway md_lines].
    destruct (znth_in_range _ (mk_lines d 0 [] src) b) as [l E]; [rewrite mk_lines_len; exact D|].
    rewrite znth_app1 by (rewrite mk_lines_len; lia). rewrite E.
    assert (L : ln_locals l = in_scope (Some b) d).
    { apply mk_lines_nth in E. destruct E as (? & ? & ? & ? & _ & _ & ->). reflexivity. }
    rewrite L. pose proof (A (Some b)) as AS. destruct (assoc_string n (in_scope (Some b) d)).
    + destruct (has_key (Some b, n) d); [reflexivity|]. destruct AS as [_ AS]. discriminate (AS eq_refl).
    + rewrite (proj1 AS eq_refl). f_equal. unfold md_with_lines, midway.
      cbn [md_name md_lines md_deps md_globals md_owned md_addr_names md_targets md_rets]. f_equal.
      * rewrite <- L. pose proof (mk_lines_define d b n t src 0 [] l ltac:(lia)) as MD.
        rewrite Z.sub_0_r in MD. specialize (MD E). rewrite <- MD.
        destruct (znth_split _ _ _ _ E) as (l1 & l2 & E1 & E2). rewrite E1, <- E2.
        rewrite <- app_assoc. cbn [app]. rewrite !zset_mid. rewrite <- app_assoc. reflexivity.
      * rewrite in_scope_app. cbn. rewrite app_nil_r. reflexivity.
  - rewrite G by reflexivity. pose proof (A None) as AS. destruct (assoc_string n (in_scope None d)).
    + destruct (has_key (None, n) d); [reflexivity|]. destruct AS as [_ AS]. discriminate (AS eq_refl).
    + rewrite (proj1 AS eq_refl). f_equal. unfold md_with_globals, midway.
      cbn [md_name md_lines md_deps md_globals md_owned md_addr_names md_targets md_rets]. f_equal.
      * f_equal. apply mk_lines_ext. intros k K0. rewrite in_scope_app. cbn. rewrite app_nil_r. reflexivity.
      * rewrite in_scope_app. reflexivity.
Qed.

Lemma midway_label : forall name d src done s n,
  upd_back (ln_add_label n) (midway name d src done s) = midway name d src (done ++ [n]) s.
Proof.
  intros. unfold upd_back. cbn [midway md_lines]. rewrite zlen_app, zlen_cons, zlen_nil.
  replace (zlen (mk_lines d 0 [] src) + (1 + 0) - 1) with (zlen (mk_lines d 0 [] src)) by lia.
  rewrite znth_mid, zset_mid. reflexivity.
Qed.

Lemma add_pending_spec : forall name src s sc pending d done, decreasing (zlen src) sc -> NoDup (keys d) ->
  let d' := d ++ label_defs sc (zlen src) pending in
  match add_pending (midway name d src done s) sc pending with
  | Ok m => m = midway name d' src (done ++ map fst pending) s /\ NoDup (keys d')
  | Err e => e = E_duplicate /\ ~ NoDup (keys d')
  | _ => False
  end.
Proof.
  intros name src s sc. induction pending as [|[n x] pending IH]; intros d done D N; cbn [add_pending map].
  - cbn. rewrite !app_nil_r. auto.
  - replace (zlen (md_lines (midway name d src done s)) - 1) with (zlen src).
    2: { cbn [midway md_lines]. rewrite zlen_app, mk_lines_len, zlen_cons, zlen_nil. lia. }
    rewrite add_label_spec by exact D.
    replace (d ++ label_defs sc (zlen src) ((n, x) :: pending))
      with ((d ++ [(scope_top sc x, n, zlen src)]) ++ label_defs sc (zlen src) pending)
      by (rewrite <- app_assoc; reflexivity).
    destruct (has_key (scope_top sc x, n) d) eqn:K; cbn [bind].
    + split; [reflexivity|]. apply has_key_in in K. intros ND. rewrite !keys_app, <- app_assoc in ND. cbn in ND.
      apply NoDup_remove_2 in ND. apply ND. apply in_or_app. auto.
    + rewrite midway_label.
      assert (N1 : NoDup (keys (d ++ [(scope_top sc x, n, zlen src)]))).
      { rewrite keys_app. apply nodup_app; [exact N|constructor; [intros []|constructor]|].
        intros k I [<-|[]]. apply has_key_in in I. cbn in I. congruence. }
      specialize (IH _ (done ++ [n]) D N1). cbv zeta in IH. rewrite <- (app_assoc done) in IH. cbn [app] in IH.
      exact IH.
Qed.

Lemma dlist_scopes : forall src b n t, In (Some b, n, t) (dlist src) -> 0 <= b < zlen src.
Proof.
  induction src as [|[labels s] src IH] using rev_ind; intros b n t H; [destruct H|].
  rewrite dlist_snoc in H. rewrite zlen_app, zlen_cons, zlen_nil. apply in_app_iff in H. destruct H as [H|H].
  - specialize (IH _ _ _ H). lia.
  - apply in_map_iff in H. destruct H as ([n' x] & E & _). injection E as E _ _.
    pose proof (stack_decreasing (map snd src)) as D. rewrite zlen_map in D.
    unfold scope_top in E. destruct (stack (map snd src)) as [|c sc]; [discriminate|].
    cbn in E, D. destruct x; [discriminate|]. injection E as ->. lia.
Qed.
Lemma in_scope_none : forall src labels k, zlen src <= k ->
  in_scope (Some k) (dlist src ++ label_defs (stack (map snd src)) (zlen src) labels) = [].
Proof.
  intros src labels k K. destruct (in_scope (Some k) _) as [|[n t] l] eqn:E; [reflexivity|exfalso].
  assert (I : In (n, t) (in_scope (Some k) (dlist src ++ label_defs (stack (map snd src)) (zlen src) labels)))
    by (rewrite E; left; reflexivity).
  apply in_scope_in, in_app_iff in I. destruct I as [I|I]; [apply dlist_scopes in I; lia|].
  apply in_map_iff in I. destruct I as ([n' x] & E' & _). injection E' as E' _ _.
  pose proof (stack_decreasing (map snd src)) as D. rewrite zlen_map in D.
  unfold scope_top in E'. destruct (stack (map snd src)) as [|c sc]; [discriminate|].
  cbn in E', D. destruct x; [discriminate|]. injection E' as ->. lia.
Qed.
Lemma midway_done : forall name src labels s,
  upd_back (ln_with_scopes (stack (map snd src)))
    (midway name (dlist src ++ label_defs (stack (map snd src)) (zlen src) labels) src (map fst labels) s)
  = closed name (src ++ [(labels, s)]).
Proof.
  intros. unfold upd_back. cbn [midway md_lines]. rewrite zlen_app, zlen_cons, zlen_nil.
  match goal with |- context [zlen ?l + (1 + 0) - 1] => replace (zlen l + (1 + 0) - 1) with (zlen l) by lia end.
  rewrite znth_mid, zset_mid. unfold closed, md_with_lines. cbn [md_name md_lines md_deps md_globals md_owned md_addr_names md_targets md_rets].
  rewrite dlist_snoc, mk_lines_app. cbn [mk_lines]. rewrite in_scope_none by lia. reflexivity.
Qed.

(** The name after the .module directives. *)
Inductive names_ok : list statement -> string -> Prop :=
| no_nil : names_ok [] ""
| no_other : forall ss s n, names_ok ss n -> ~ is_dir D_module s -> names_ok (ss ++ [s]) n
| no_module : forall ss d n, names_ok ss "" -> d_name d = D_module ->
    simple_identifier_opt (d_arg d) = Some n -> names_ok (ss ++ [SDir d]) n.

Lemma names_ok_snoc : forall ss s n, names_ok (ss ++ [s]) n ->
  (~ is_dir D_module s /\ names_ok ss n) \/
  (exists d, s = SDir d /\ d_name d = D_module /\ simple_identifier_opt (d_arg d) = Some n /\ names_ok ss "").
Proof.
  intros ss s n H. inversion H as [E|ss' s' n' H1 H2 E|ss' d n' H1 H2 H3 E].
  - destruct ss; discriminate.
  - apply app_inj_tail in E. destruct E as [-> ->]. auto.
  - apply app_inj_tail in E. destruct E as [-> <-]. right. exists d. auto.
Qed.
Lemma names_ok_det : forall ss n n', names_ok ss n -> names_ok ss n' -> n = n'.
Proof.
  induction ss as [|s ss IH] using rev_ind; intros n n' H H'.
  - inversion H as [|? ? ? ? ? E|? ? ? ? ? ? E]; [|destruct ss; discriminate..].
    inversion H' as [|? ? ? ? ? E|? ? ? ? ? ? E]; [reflexivity|destruct ss; discriminate..].
  - apply names_ok_snoc in H, H'. destruct H as [[A1 A2]|(d & -> & A2 & A3 & A4)], H' as [[B1 B2]|(d' & E & B2 & B3 & B4)].
    + auto.
    + subst. destruct A1. exists d'. auto.
    + destruct B1. exists d. auto.
    + injection E as <-. congruence.
Qed.
Lemma names_ok_prefix : forall b a n, names_ok (a ++ b) n -> exists n', names_ok a n'.
Proof.
  induction b as [|s b IH] using rev_ind; intros a n H; [rewrite app_nil_r in H; eauto|].
  rewrite app_assoc in H. apply names_ok_snoc in H.
  destruct H as [[_ H]|(_ & _ & _ & _ & H)]; eapply IH; eassumption.
Qed.

Definition fine_source (name : string) (src : source) : Prop :=
  NoDup (keys (dlist src)) /\ (forall a b, map snd src = a ++ b -> 0 <= nesting a) /\
  names_ok (map snd src) name.

Lemma fine_source_prefix : forall name a b, fine_source name (a ++ b) -> exists name', fine_source name' a.
Proof.
  intros name a b (H1 & H2 & H3). rewrite map_app in H2, H3. apply names_ok_prefix in H3. destruct H3 as [n' H3].
  exists n'. split; [|split; [|exact H3]].
  - unfold dlist in *. rewrite dlist_from_app, keys_app in H1.
    clear -H1. induction (keys (dlist_from 0 [] a)) as [|k l IH]; [constructor|]. cbn in H1. inversion H1; subst.
    constructor; [|auto]. intros I. apply H2. apply in_or_app. auto.
  - intros c d E. apply (H2 c (d ++ map snd b)). rewrite E, app_assoc. reflexivity.
Qed.

Definition loaded (name : string) (src : source) (pending : list (string * bool)) : loader :=
  Loader (closed name src) pending (stack (map snd src)).

Lemma load_stmt_spec : forall name src pending s, fine_source name src ->
  match load_entity (loaded name src pending) (PStmt s) with
  | Ok ld => exists name', ld = loaded name' (src ++ [(pending, s)]) [] /\ fine_source name' (src ++ [(pending, s)])
  | Err _ => forall name', ~ fine_source name' (src ++ [(pending, s)])
  | _ => False
  end.
Proof.
  intros name src pending s (F1 & F2 & F3). cbn [load_entity loaded ld_mod ld_pending ld_scopes].
  change (md_with_lines (md_lines (closed name src) ++ [new_line s]) (closed name src))
    with (midway name (dlist src) src [] s).
  pose proof (stack_decreasing (map snd src)) as D. rewrite zlen_map in D.
  pose proof (add_pending_spec name src s _ pending (dlist src) [] D F1) as AP. cbv zeta in AP.
  destruct (add_pending (midway name (dlist src) src [] s) (stack (map snd src)) pending) as [m|e|u|]; cbn [bind]; try contradiction.
  2: { destruct AP as [_ AP]. intros name' (G1 & _). rewrite dlist_snoc in G1. contradiction. }
  destruct AP as [-> AP]. cbn [app]. rewrite midway_done. rewrite <- dlist_snoc with (s := s) in AP.
  set (src' := src ++ [(pending, s)]) in *.
  assert (ST : stack (map snd src') = push (zlen src) s (stack (map snd src))).
  { unfold src'. rewrite map_app. cbn. rewrite stack_snoc, zlen_map. reflexivity. }
  assert (ND : 0 <= nesting (map snd src) + nesting [s] -> forall a b, map snd src' = a ++ b -> 0 <= nesting a).
  { intros H a b E. unfold src' in E. rewrite map_app in E. cbn in E. destruct (snoc_cases _ b) as [->|(b' & x & ->)].
    - rewrite app_nil_r in E. subst a. rewrite nesting_app. exact H.
    - rewrite app_assoc in E. apply app_inj_tail in E. destruct E as [E _]. eapply F2. exact E. }
  assert (NS : 0 <= nesting (map snd src)) by (apply (F2 _ []); symmetry; apply app_nil_r).
  assert (LEN : zlen (md_lines (closed name src')) - 1 = zlen src).
  { cbn. rewrite mk_lines_len. unfold src'. rewrite zlen_app, zlen_cons, zlen_nil. lia. }
  assert (OTHER : ~ is_dir D_module s -> names_ok (map snd src') name).
  { intros H. unfold src'. rewrite map_app. cbn. constructor; assumption. }
  assert (PLAIN : forall sc', sc' = stack (map snd src') -> ~ is_dir D_module s -> 0 <= nesting (map snd src) + nesting [s] ->
            exists name', Loader (closed name src') [] sc' = loaded name' src' [] /\ fine_source name' src').
  { intros sc' -> M H. exists name. split; [reflexivity|]. split; [exact AP|]. split; [apply ND; exact H|apply OTHER; exact M]. }
  rewrite nesting_one in ND, PLAIN. unfold load_directive. destruct s as [i|d].
  - apply PLAIN; [symmetry; exact ST|intros (d & E & _); discriminate|lia].
  - assert (NM : d_name d <> D_module -> ~ is_dir D_module (SDir d)).
    { intros H (d' & E & E'). injection E as ->. contradiction. }
    unfold push in ST.
    destruct (d_name d) eqn:DN; try (apply PLAIN; [symmetry; exact ST|apply NM; discriminate|lia]).
    + (* begin *) rewrite LEN. apply PLAIN; [symmetry; exact ST|apply NM; discriminate|lia].
    + (* end *) destruct (stack (map snd src)) as [|c sc] eqn:SE.
      * intros name' (_ & G & _). pose proof (stack_length _ F2) as SL. rewrite SE, zlen_nil in SL.
        specialize (G (map snd src') [] (eq_sym (app_nil_r _))). unfold src' in G. rewrite map_app, nesting_app in G.
        cbn [map snd] in G. rewrite nesting_one, DN in G. lia.
      * apply PLAIN; [symmetry; exact ST|apply NM; discriminate|].
        pose proof (stack_length _ F2) as SL. rewrite SE, zlen_cons in SL. pose proof (zlen_nonneg _ sc). lia.
    + (* module *) destruct (String.eqb_spec (md_name (closed name src')) "") as [N0|N0]; cbn [negb].
      * cbn in N0. subst name. destruct (simple_identifier_opt (d_arg d)) as [id|] eqn:ID.
        -- exists id. split; [rewrite <- ST; reflexivity|]. split; [exact AP|]. split; [apply ND; lia|].
           unfold src'. rewrite map_app. cbn. constructor; assumption.
        -- intros name' (_ & _ & G). unfold src' in G. rewrite map_app in G. cbn in G. apply names_ok_snoc in G.
           destruct G as [[G _]|(d' & E & _ & G & _)]; [apply G; exists d; auto|]. injection E as <-. congruence.
      * intros name' (_ & _ & G). unfold src' in G. rewrite map_app in G. cbn in G. apply names_ok_snoc in G.
        destruct G as [[G _]|(d' & E & _ & _ & G)]; [apply G; exists d; auto|].
        apply N0. cbn. exact (names_ok_det _ _ _ F3 G).
Qed.

Lemma load_entities_spec : forall es name src pending, fine_source name src ->
  match load_entities (loaded name src pending) es with
  | Ok ld => exists name' pending', ld = loaded name' (src ++ statements pending es) pending' /\
      fine_source name' (src ++ statements pending es)
  | Err _ => forall name', ~ fine_source name' (src ++ statements pending es)
  | _ => False
  end.
Proof.
  induction es as [|[n x|s] es IH]; intros name src pending F; cbn [load_entities statements].
  - rewrite app_nil_r. exists name, pending. auto.
  - cbn [load_entity loaded ld_mod ld_pending ld_scopes bind]. apply IH. exact F.
  - pose proof (load_stmt_spec name src pending s F) as L.
    destruct (load_entity (loaded name src pending) (PStmt s)) as [ld|e|u|]; cbn [bind]; try contradiction.
    + destruct L as (name' & -> & F'). specialize (IH _ _ [] F'). rewrite <- app_assoc in IH. exact IH.
    + intros name' G. change ((pending, s) :: statements [] es) with ([(pending, s)] ++ statements [] es) in G.
      rewrite app_assoc in G. apply fine_source_prefix in G. destruct G as [n' G]. apply (L _ G).
Qed.

Definition line_reads (line : string) (es : list parsed) : Prop :=
  exists ts, tokenize line = Ok ts /\ parse ts = Ok es.
Lemma load_lines_eq : forall file ess, Forall2 line_reads file ess ->
  forall ld, load_lines ld file = load_entities ld (concat ess).
Proof.
  assert (APP : forall a b ld, load_entities ld (a ++ b) = let* ld := load_entities ld a in load_entities ld b).
  { induction a as [|e a IH]; intros b ld; cbn; [reflexivity|]. destruct (load_entity ld e); cbn; auto. }
  intros file ess H. induction H as [|line es file ess (ts & T & P) H IH]; intros ld; cbn [load_lines concat]; [reflexivity|].
  rewrite T. cbn [bind]. rewrite P. cbn [bind]. rewrite APP. destruct (load_entities ld es); cbn; auto.
Qed.
Lemma load_lines_reads : forall file ld ld', load_lines ld file = Ok ld' -> exists ess, Forall2 line_reads file ess.
Proof.
  induction file as [|line file IH]; intros ld ld' H; [exists []; constructor|]. cbn [load_lines] in H.
  bok H as ts T. bok H as es P. bok H as ld1 L. apply IH in H. destruct H as [ess H].
  exists (es :: ess). constructor; [exists ts; auto|exact H].
Qed.

Lemma empty_closed : empty_module = closed "" [].
Proof. reflexivity. Qed.
Lemma fine_empty : fine_source "" [].
Proof.
  split; [constructor|]. split; [|constructor]. intros a b E. symmetry in E. apply app_eq_nil in E.
  destruct E as [-> _]. cbn. lia.
Qed.

(** A file loads exactly when it is fine; the module is determined by the source. *)
Definition module_of (name : string) (src : source) : module :=
  md_with_deps (compute_deps (closed name src)) (closed name src).
Lemma load_exact : forall file m, load_asm_file file = Ok m <->
  exists src name, reads file src /\ fine_source name src /\ nesting (map snd src) = 0 /\ m = module_of name src.
Proof.
  intros file m. unfold load_asm_file.
  assert (K : forall ess, Forall2 line_reads file ess ->
    let src := statements [] (concat ess) in
    match load_lines (Loader empty_module [] []) file with
    | Ok ld => exists name pending, ld = loaded name src pending /\ fine_source name src
    | Err _ => forall name, ~ fine_source name src
    | _ => False
    end).
  { intros ess H. cbv zeta. rewrite (load_lines_eq _ _ H). exact (load_entities_spec (concat ess) "" [] [] fine_empty). }
  split.
  - intros H. bok H as ld L. destruct (load_lines_reads _ _ _ L) as [ess R]. specialize (K _ R). cbv zeta in K.
    rewrite L in K. destruct K as (name & pending & -> & F). cbn [loaded ld_scopes ld_mod] in H.
    set (src := statements [] (concat ess)) in *. exists src, name.
    pose proof (stack_length _ (proj1 (proj2 F))) as SL.
    destruct (stack (map snd src)) eqn:SE; [|discriminate]. injection H as <-. rewrite zlen_nil in SL.
    repeat split; try apply F; [|symmetry; exact SL]. exists ess. split; [exact R|reflexivity].
  - intros (src & name & (ess & R & ->) & F & N & ->). specialize (K _ R). cbv zeta in K.
    destruct (load_lines (Loader empty_module [] []) file) as [ld|e|u|]; cbn [bind]; try contradiction; [|destruct (K _ F)].
    destruct K as (name' & pending & -> & F'). assert (name' = name) as -> by (eapply names_ok_det; [apply F'|apply F]).
    cbn [loaded ld_scopes ld_mod]. pose proof (stack_length _ (proj1 (proj2 F))) as SL.
    destruct (stack _); [reflexivity|]. rewrite zlen_cons in SL. match type of SL with context [zlen ?l] => pose proof (zlen_nonneg _ l) end. lia.
Qed.
