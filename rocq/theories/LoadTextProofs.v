(** Proofs about the messages of LoadAsmFile about labels, modules and blocks. *)
From Coq Require Import Lia.
From Verif Require Import BaseProofs ModelMnemonic ModelExpr ModelInstr ModelStatement ModelParse ModelMap ModelModule ModelLocation ModelRomText ModelParseText ModelFlagText ModelLoadText
  SpecParseText SpecLoadText NameProofs MapProofs.
Open Scope string_scope.
Open Scope list_scope.
Open Scope Z_scope.

Lemma bare_label : forall m scopes n x t, SpecParseText.bare (t_add_label m scopes n x t) = add_label m scopes n x t.
Proof. intros m scopes n x t. unfold t_add_label, add_label. destruct scopes as [|i scopes], x; try (destruct (assoc_string n (md_globals m)); reflexivity).
  destruct (znth (md_lines m) i) as [l|]; [|reflexivity]. destruct (assoc_string n (ln_locals l)); reflexivity. Qed.
Lemma bare_pending : forall pending m scopes, SpecParseText.bare (t_add_pending m scopes pending) = add_pending m scopes pending.
Proof.
  induction pending as [|[n x] pending IH]; intros m scopes; cbn [t_add_pending add_pending]; [reflexivity|]. rewrite <- bare_label.
  destruct (t_add_label _ _ _ _ _); cbn [pbind SpecParseText.bare bind]; try reflexivity. apply IH.
Qed.
Lemma bare_directive : forall m scopes s, SpecParseText.bare (t_load_directive m scopes s) = load_directive m scopes s.
Proof.
  intros m scopes [i|d]; cbn [t_load_directive load_directive]; [reflexivity|]. destruct (d_name d); try reflexivity.
  - destruct scopes; reflexivity.
  - destruct (negb _); [reflexivity|]. destruct (simple_identifier_opt _); reflexivity.
Qed.
Lemma bare_entity : forall ld e, SpecParseText.bare (t_load_entity ld e) = load_entity ld e.
Proof.
  intros ld [n x|s]; [reflexivity|]. unfold t_load_entity, load_entity. cbv zeta. rewrite <- bare_pending. destruct (t_add_pending _ _ _); cbn [pbind SpecParseText.bare bind]; try reflexivity. apply bare_directive.
Qed.

Lemma names_upd : forall f m scopes top, (forall l, ln_locals (f l) = ln_locals l) -> names_at (upd_back f m) scopes top = names_at m scopes top.
Proof.
  intros f m scopes top F. unfold upd_back. cbv zeta. destruct (znth (md_lines m) (zlen (md_lines m) - 1)) as [l|] eqn:Z; [|reflexivity]. unfold names_at. destruct top; [reflexivity|].
  destruct scopes as [|i scopes]; [reflexivity|]. cbn [md_lines md_with_lines]. pose proof (znth_some _ _ _ _ Z) as R.
  destruct (Z.eq_dec (zlen (md_lines m) - 1) i) as [<-|N]; [rewrite znth_zset_same by exact R; rewrite Z; rewrite F; reflexivity|rewrite znth_zset_other by exact N; reflexivity].
Qed.
Lemma name_upd : forall f m, md_name (upd_back f m) = md_name m.
Proof. intros f m. unfold upd_back. cbv zeta. destruct (znth _ _); reflexivity. Qed.
Definition label_text (n : string) : string := ("Duplicate label definition for '" ++ n ++ "'")%string.
Lemma label_says : forall m scopes n x t,
  match t_add_label m scopes n x t with
  | POk m' => md_name m' = md_name m /\ forall top, names_at m' scopes top = names_at m scopes top ++ labels_at scopes top [(n, x)]
  | PErr er => re_kind er = E_duplicate /\ re_text er = label_text n /\ In n (names_at m scopes (at_top scopes x))
  | _ => True
  end.
Proof.
  intros m scopes n x t. unfold t_add_label.
  assert (G : at_top scopes x = true -> match match assoc_string n (md_globals m) with Some _ => err_here E_duplicate (label_text n) | None => POk (md_with_globals (md_globals m ++ [(n, t)]) m) end with
    | POk m' => md_name m' = md_name m /\ forall top, names_at m' scopes top = names_at m scopes top ++ labels_at scopes top [(n, x)]
    | PErr er => re_kind er = E_duplicate /\ re_text er = label_text n /\ In n (names_at m scopes (at_top scopes x))
    | _ => True end).
  { intros A. destruct (assoc_string n (md_globals m)) as [k|] eqn:S.
    - cbn. split; [reflexivity|]. split; [reflexivity|]. rewrite A. cbn [names_at]. apply NameProofs.assoc_string_in in S. apply (in_map fst) in S. exact S.
    - split; [reflexivity|]. intros top. unfold labels_at. cbn [filter snd]. rewrite A. destruct top; cbn [Bool.eqb map fst names_at md_with_globals md_globals md_lines]; [apply map_app|symmetry; apply app_nil_r]. }
  destruct scopes as [|i scopes]; [destruct x; apply G; reflexivity|]. destruct x; [apply G; reflexivity|].
  destruct (znth (md_lines m) i) as [l|] eqn:Z; [|exact Logic.I]. destruct (assoc_string n (ln_locals l)) as [k|] eqn:S.
  - cbn. split; [reflexivity|]. split; [reflexivity|]. rewrite Z. apply NameProofs.assoc_string_in in S. apply (in_map fst) in S. exact S.
  - split; [reflexivity|]. intros top. unfold labels_at. cbn [filter snd at_top orb]. destruct top; cbn [Bool.eqb map fst names_at md_with_lines md_globals md_lines]; [symmetry; apply app_nil_r|].
    rewrite znth_zset_same by exact (znth_some _ _ _ _ Z). rewrite Z. cbn [ln_locals ln_with_locals]. apply map_app.
Qed.
Lemma pending_says : forall pending m scopes,
  match t_add_pending m scopes pending with
  | POk m' => md_name m' = md_name m
  | PErr er => re_kind er = E_duplicate /\ exists before n x after, pending = before ++ (n, x) :: after /\ re_text er = label_text n /\
      In n (names_at m scopes (at_top scopes x) ++ labels_at scopes (at_top scopes x) before)
  | _ => True
  end.
Proof.
  induction pending as [|[n x] pending IH]; intros m scopes; cbn [t_add_pending]; [reflexivity|]. pose proof (label_says m scopes n x (zlen (md_lines m) - 1)) as L.
  destruct (t_add_label m scopes n x (zlen (md_lines m) - 1)) as [m1|er|u|]; cbn [pbind]; try exact Logic.I.
  - destruct L as [NM L]. specialize (IH (upd_back (ln_add_label n) m1) scopes). destruct (t_add_pending _ _ _) as [m2|er|u|]; try exact Logic.I.
    + rewrite IH, name_upd. exact NM.
    + destruct IH as (K & before & n' & x' & after & -> & T & I). split; [exact K|]. exists ((n, x) :: before), n', x', after. split; [reflexivity|]. split; [exact T|].
      rewrite names_upd in I by reflexivity. rewrite L, <- app_assoc in I. unfold labels_at in *. rewrite <- map_app in I. rewrite <- filter_app in I. exact I.
  - destruct L as (K & T & I). split; [exact K|]. exists [], n, x, pending. split; [reflexivity|]. split; [exact T|]. apply in_or_app. left. exact I.
Qed.
Lemma entity_says : forall ld e er, t_load_entity ld e = PErr er ->
  (forall i, In i (ld_scopes ld) -> 0 <= i < zlen (md_lines (ld_mod ld))) ->
  exists s, e = PStmt s /\
   ((re_kind er = E_duplicate /\ exists before n x after, ld_pending ld = before ++ (n, x) :: after /\ re_text er = label_text n /\
       In n (names_at (ld_mod ld) (ld_scopes ld) (at_top (ld_scopes ld) x) ++ labels_at (ld_scopes ld) (at_top (ld_scopes ld) x) before)) \/
    (exists d, s = SDir d /\ d_name d = D_module /\
       ((re_kind er = E_duplicate /\ re_text er = "Duplicate .MODULE directive" /\ md_name (ld_mod ld) <> "") \/ (re_kind er = E_logic /\ simple_identifier_opt (d_arg d) = None))) \/
    (exists d, s = SDir d /\ d_name d = D_end /\ ld_scopes ld = [] /\ re_kind er = E_scope /\ re_text er = "Scope close without matching open")).
Proof.
  intros ld [n x|s] er H R; [discriminate|]. exists s. split; [reflexivity|]. unfold t_load_entity in H. cbv zeta in H.
  set (m0 := md_with_lines (md_lines (ld_mod ld) ++ [new_line s]) (ld_mod ld)) in H. pose proof (pending_says (ld_pending ld) m0 (ld_scopes ld)) as P.
  assert (N0 : forall top, names_at m0 (ld_scopes ld) top = names_at (ld_mod ld) (ld_scopes ld) top).
  { intros top. unfold names_at. destruct top; [reflexivity|]. destruct (ld_scopes ld) as [|i sc]; [reflexivity|]. specialize (R i (or_introl eq_refl)). unfold m0. cbn [md_lines md_with_lines].
    destruct (znth_in_range _ _ _ R) as [l Z]. rewrite Z. rewrite (znth_app1 _ _ _ _ (proj2 R)), Z. reflexivity. }
  destruct (t_add_pending m0 (ld_scopes ld) (ld_pending ld)) as [m1|e1|u|]; cbn [pbind] in H; try discriminate.
  - right. unfold t_load_directive in H. destruct s as [i|d]; [discriminate|]. destruct (d_name d) eqn:D; try discriminate.
    + right. exists d. destruct (ld_scopes ld); [|discriminate]. injection H as <-. repeat split; auto.
    + left. exists d. split; [reflexivity|]. split; [exact D|]. rewrite name_upd, P in H. change (md_name m0) with (md_name (ld_mod ld)) in H.
      destruct (String.eqb_spec (md_name (ld_mod ld)) "") as [E|E]; cbn [negb] in H.
      * right. destruct (simple_identifier_opt (d_arg d)) eqn:SI; [discriminate|]. injection H as <-. split; [reflexivity|reflexivity].
      * left. injection H as <-. split; [reflexivity|]. split; [reflexivity|exact E].
  - injection H as ->. left. destruct P as (K & before & n & x & after & E & T & I). split; [exact K|]. exists before, n, x, after. rewrite N0 in I. auto.
Qed.

(** ** Open blocks are lines of the module. *)
Definition blocks_ok (ld : loader) : Prop := forall i, In i (ld_scopes ld) -> 0 <= i < zlen (md_lines (ld_mod ld)).
Lemma label_len : forall m scopes n x t m', add_label m scopes n x t = Ok m' -> zlen (md_lines m') = zlen (md_lines m).
Proof.
  intros m scopes n x t m' H. unfold add_label in H. assert (G : match assoc_string n (md_globals m) with Some _ => Err E_duplicate | None => Ok (md_with_globals (md_globals m ++ [(n, t)]) m) end = Ok m' -> zlen (md_lines m') = zlen (md_lines m)).
  { intros X. destruct (assoc_string n (md_globals m)); [discriminate|]. injection X as <-. reflexivity. }
  destruct scopes as [|i scopes], x; try exact (G H). destruct (znth (md_lines m) i) as [l|]; [|discriminate]. destruct (assoc_string n (ln_locals l)); [discriminate|]. injection H as <-. apply zlen_zset.
Qed.
Lemma back_len : forall f m, zlen (md_lines (upd_back f m)) = zlen (md_lines m).
Proof. intros f m. unfold upd_back. cbv zeta. destruct (znth _ _); [apply zlen_zset|reflexivity]. Qed.
Lemma pending_len : forall pending m scopes m', add_pending m scopes pending = Ok m' -> zlen (md_lines m') = zlen (md_lines m).
Proof.
  induction pending as [|[n x] pending IH]; intros m scopes m' H; cbn [add_pending] in H; [injection H as <-; reflexivity|].
  destruct (add_label m scopes n x (zlen (md_lines m) - 1)) as [m1|e|u|] eqn:A; cbn [bind] in H; try discriminate. rewrite (IH _ _ _ H), back_len. exact (label_len _ _ _ _ _ _ A).
Qed.
Lemma entity_blocks : forall ld e ld', blocks_ok ld -> load_entity ld e = Ok ld' -> blocks_ok ld'.
Proof.
  intros ld [n x|s] ld' B H; [injection H as <-; exact B|]. unfold load_entity in H. cbv zeta in H.
  destruct (add_pending _ _ _) as [m1|e|u|] eqn:P; cbn [bind] in H; try discriminate. apply pending_len in P. cbn [md_lines md_with_lines] in P.
  assert (L : zlen (md_lines m1) = zlen (md_lines (ld_mod ld)) + 1) by (rewrite P; unfold zlen; rewrite app_length; cbn [List.length]; lia).
  assert (Z0 : 0 <= zlen (md_lines (ld_mod ld))) by (unfold zlen; lia).
  set (m2 := upd_back (ln_with_scopes (ld_scopes ld)) m1) in H. assert (L2 : zlen (md_lines m2) = zlen (md_lines (ld_mod ld)) + 1) by (unfold m2; rewrite back_len; exact L).
  assert (S : forall sc m, md_lines m = md_lines m2 -> (forall i, In i sc -> In i (ld_scopes ld) \/ i = zlen (md_lines m2) - 1) -> blocks_ok (Loader m [] sc)).
  { intros sc m E I i X. cbn [ld_scopes ld_mod] in *. rewrite E, L2. destruct (I i X) as [Y| ->]; [specialize (B i Y); lia|lia]. }
  unfold load_directive in H. destruct s as [i|d]; [injection H as <-; apply S; auto|]. destruct (d_name d); try (injection H as <-; apply S; auto; fail).
  - injection H as <-. apply S; [reflexivity|]. intros i [<-|I]; auto.
  - destruct (ld_scopes ld) as [|i0 sc] eqn:SC; [discriminate|]. injection H as <-. apply S; [reflexivity|]. intros i I. left. right. exact I.
  - destruct (negb _); [discriminate|]. destruct (simple_identifier_opt _); [|discriminate]. injection H as <-. apply S; auto.
Qed.
Lemma entities_blocks : forall es ld ld', blocks_ok ld -> load_entities ld es = Ok ld' -> blocks_ok ld'.
Proof.
  induction es as [|e es IH]; intros ld ld' B H; cbn [load_entities] in H; [injection H as <-; exact B|].
  destruct (load_entity ld e) as [ld1|e1|u|] eqn:L; cbn [bind] in H; try discriminate. exact (IH _ _ (entity_blocks _ _ _ B L) H).
Qed.

(** ** What is accepted. *)
Lemma label_new : forall m scopes n x t m', t_add_label m scopes n x t = POk m' -> ~ In n (names_at m scopes (at_top scopes x)).
Proof.
  intros m scopes n x t m' H. unfold t_add_label in H. cbv zeta in H.
  assert (G : match assoc_string n (md_globals m) with Some _ => err_here E_duplicate (label_text n) | None => POk (md_with_globals (md_globals m ++ [(n, t)]) m) end = POk m' -> ~ In n (map fst (md_globals m))).
  { intros X. destruct (assoc_string n (md_globals m)) eqn:S; [discriminate|]. apply NameProofs.assoc_string_none in S. exact S. }
  destruct scopes as [|i scopes], x; try exact (G H). destruct (znth (md_lines m) i) as [l|] eqn:Z; [|discriminate]. destruct (assoc_string n (ln_locals l)) eqn:S; [discriminate|].
  cbn. rewrite Z. apply NameProofs.assoc_string_none in S. exact S.
Qed.
Lemma pending_new : forall pending m scopes m', t_add_pending m scopes pending = POk m' -> forall before n x after, pending = before ++ (n, x) :: after ->
  ~ In n (names_at m scopes (at_top scopes x) ++ labels_at scopes (at_top scopes x) before).
Proof.
  induction pending as [|[n0 x0] pending IH]; intros m scopes m' H before n x after E; [destruct before; discriminate|]. cbn [t_add_pending] in H.
  pose proof (label_says m scopes n0 x0 (zlen (md_lines m) - 1)) as L. destruct (t_add_label m scopes n0 x0 (zlen (md_lines m) - 1)) as [m1|er|u|] eqn:A; cbn [pbind] in H; try discriminate.
  destruct before as [|p before].
  - injection E as -> -> ->. unfold labels_at. cbn [filter map]. rewrite app_nil_r. exact (label_new _ _ _ _ _ _ A).
  - injection E as <- ->. intros I. destruct L as [_ L]. apply (IH _ _ _ H before n x after eq_refl). rewrite names_upd by reflexivity. rewrite L, <- app_assoc. unfold labels_at in *. rewrite <- map_app, <- filter_app. exact I.
Qed.
Lemma entity_accepted : forall ld s ld', blocks_ok ld -> load_entity ld (PStmt s) = Ok ld' ->
  (forall before n x after, ld_pending ld = before ++ (n, x) :: after ->
     ~ In n (names_at (ld_mod ld) (ld_scopes ld) (at_top (ld_scopes ld) x) ++ labels_at (ld_scopes ld) (at_top (ld_scopes ld) x) before)) /\
  (forall d, s = SDir d -> d_name d = D_module -> md_name (ld_mod ld) = "") /\ (forall d, s = SDir d -> d_name d = D_end -> ld_scopes ld <> []).
Proof.
  intros ld s ld' R H. rewrite <- bare_entity in H. unfold t_load_entity in H. cbv zeta in H.
  set (m0 := md_with_lines (md_lines (ld_mod ld) ++ [new_line s]) (ld_mod ld)) in H. pose proof (pending_says (ld_pending ld) m0 (ld_scopes ld)) as P.
  assert (N0 : forall top, names_at m0 (ld_scopes ld) top = names_at (ld_mod ld) (ld_scopes ld) top).
  { intros top. unfold names_at. destruct top; [reflexivity|]. unfold blocks_ok in R. destruct (ld_scopes ld) as [|i sc]; [reflexivity|]. specialize (R i (or_introl eq_refl)). unfold m0. cbn [md_lines md_with_lines].
    rewrite (znth_app1 _ _ _ _ (proj2 R)). reflexivity. }
  destruct (t_add_pending m0 (ld_scopes ld) (ld_pending ld)) as [m1|e1|u|] eqn:A; cbn [pbind] in H; try discriminate. split; [|split].
  - intros before n x after E. rewrite <- N0. exact (pending_new _ _ _ _ A before n x after E).
  - intros d -> D. cbn [t_load_directive] in H. rewrite D, name_upd, P in H. change (md_name m0) with (md_name (ld_mod ld)) in H.
    destruct (String.eqb_spec (md_name (ld_mod ld)) "") as [E|E]; [exact E|discriminate H].
  - intros d -> D S. cbn [t_load_directive] in H. rewrite D, S in H. discriminate H.
Qed.
