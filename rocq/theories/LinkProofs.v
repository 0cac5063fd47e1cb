(** Proofs that adding files to a program changes nothing about the rest of it. *)
From Coq Require Import Permutation.
From Verif Require Import BaseProofs ModelNumeric ModelAddress ModelMnemonic ModelAMode ModelOpcode ModelExpr ModelInstr ModelState
  ModelToken ModelStatement ModelParse ModelMap ModelRanges ModelModule ModelAssembler SpecArith ArithProofs SpecRanges RangesProofs SpecInstr
  InstrProofs MapProofs SpecScope SpecLayout SpecOrder OrderProofs LoadProofs ScopeProofs PassProofs LayoutProofs
  SpecAssemble AssembleProofs SpecSink SinkProofs ProgramProofs SpecText ShowProofs PermuteProofs SpecLink.
Open Scope string_scope.
Open Scope list_scope.
Open Scope Z_scope.

(** ** One owner for every exported name. *)
Lemma in_exports : forall T t id, In t T -> In id (exports (p0 t)) -> In id (flat_map exports (map p0 T)).
Proof. intros T t id I X. apply in_flat_map. exists (p0 t). split; [apply in_map; exact I|exact X]. Qed.
Lemma nodup_app : forall A (a b : list A), NoDup (a ++ b) <-> NoDup a /\ NoDup b /\ forall x, In x a -> ~ In x b.
Proof.
  intros A a b. induction a as [|x a IH]; cbn [app].
  - split; [intros H; repeat split; [constructor|exact H|intros x []]|intros (_ & H & _); exact H].
  - split.
    + intros H. inversion H as [|? ? N D]; subst. apply IH in D. destruct D as (D1 & D2 & D3). split; [constructor; [intros I; apply N, in_or_app; left; exact I|exact D1]|].
      split; [exact D2|]. intros y [<-|I]; [intros J; apply N, in_or_app; right; exact J|apply D3, I].
    + intros (D1 & D2 & D3). inversion D1 as [|? ? N D]; subst. constructor.
      * intros I. apply in_app_or in I. destruct I as [I|I]; [apply N, I|exact (D3 x (or_introl eq_refl) I)].
      * apply IH. split; [exact D|]. split; [exact D2|]. intros y I. apply D3. right. exact I.
Qed.
Lemma one_owner : forall T t u id, unique_exports (map p0 T) -> In t T -> In u T -> In id (exports (p0 t)) -> In id (exports (p0 u)) -> t = u.
Proof.
  intros T t u id. unfold unique_exports. induction T as [|a T IH]; intros N I J X Y; [destruct I|].
  cbn [map flat_map] in N. apply nodup_app in N. destruct N as (_ & N & D).
  destruct I as [<-|I], J as [<-|J]; [reflexivity| | |exact (IH N I J X Y)].
  - exfalso. exact (D id X (in_exports _ _ _ J Y)).
  - exfalso. exact (D id Y (in_exports _ _ _ I X)).
Qed.
Definition exports_b (m : module) (id : fullid) : bool := existsb (fullid_eqb id) (exports m).
Lemma exports_b_in : forall m id, exports_b m id = true <-> In id (exports m).
Proof.
  intros m id. unfold exports_b. rewrite existsb_exists. split.
  - intros (x & I & E). apply fullid_eqb_eq in E. subst. exact I.
  - intros I. exists id. split; [exact I|apply fullid_eqb_eq; reflexivity].
Qed.
(** What the exported names are, as a function. *)
Definition lookup (T : list part) (id : fullid) : res Z :=
  match find (fun t => exports_b (p0 t) id) T with Some t => value_for_name (p2 t) id | None => Err E_undefined end.
Lemma lookup_known : forall T id v, unique_exports (map p0 T) -> known T id v -> lookup T id = Ok v.
Proof.
  intros T id v U (t & I & X & V). unfold lookup. destruct (find (fun t => exports_b (p0 t) id) T) as [u|] eqn:F.
  - destruct (find_some _ _ F) as [J Y]. apply exports_b_in in Y. rewrite (one_owner _ _ _ _ U J I Y X). exact V.
  - apply (find_none _ _ F) in I. cbn beta in I. apply exports_b_in in X. congruence.
Qed.

(** ** The parts of a program are parts of the larger one. *)
Lemma known_sub : forall T T' id v, incl T T' -> known T id v -> known T' id v.
Proof. intros T T' id v S (t & I & X). exists t. split; [apply S, I|exact X]. Qed.
Lemma twins_step : forall fuel S T before s t, Forall (good_part fuel S) S -> Forall (good_part fuel T) T ->
  unique_exports (map p0 S) -> unique_exports (map p0 T) -> In s S -> In t T -> p0 s = p0 t ->
  Forall (fun y => In (fst y) S /\ In (snd y) T /\ p0 (fst y) = p0 (snd y) /\ p2 (fst y) = p2 (snd y)) before ->
  (forall id, In id (md_deps (p0 s)) -> exists m, In m (map (fun y => p0 (fst y)) before) /\ In id (exports m)) ->
  p1 s = p1 t /\ p2 s = p2 t.
Proof.
  intros fuel S T before s t GS GT US UT IS IT E B D. rewrite Forall_forall in GS, GT, B.
  destruct (GS s IS) as (S1 & S2 & _). destruct (GT t IT) as (T1 & T2 & _).
  assert (E1 : p1 s = p1 t) by congruence. split; [exact E1|].
  pose (ext := fun (_ : module) id => lookup (map fst before) id).
  assert (A : run_second_pass ext (p1 s) = Ok (p2 s)).
  { apply S2. intros cur id v _ I (u & IU & XU & VU). unfold ext, lookup. destruct (D id I) as (m & IM & XM). apply in_map_iff in IM. destruct IM as (y & <- & IY).
    destruct (find (fun t => exports_b (p0 t) id) (map fst before)) as [w|] eqn:F.
    - destruct (find_some _ _ F) as [J Y]. apply exports_b_in in Y. apply in_map_iff in J. destruct J as (z & <- & IZ).
      rewrite (one_owner S (fst z) u id US (proj1 (B z IZ)) IU Y XU). exact VU.
    - pose proof (find_none _ _ F (fst y) (in_map fst _ _ IY)) as X; cbn beta in X; apply exports_b_in in XM; congruence. }
  assert (A' : run_second_pass ext (p1 t) = Ok (p2 t)).
  { apply T2. intros cur id v _ I (u & IU & XU & VU). rewrite <- E in I. unfold ext, lookup. destruct (D id I) as (m & IM & XM). apply in_map_iff in IM. destruct IM as (y & <- & IY).
    destruct (find (fun t => exports_b (p0 t) id) (map fst before)) as [w|] eqn:F.
    - destruct (find_some _ _ F) as [J Y]. apply exports_b_in in Y. apply in_map_iff in J. destruct J as (z & <- & IZ).
      destruct (B z IZ) as (_ & JZ & EZ & PZ). rewrite EZ in Y. rewrite PZ. rewrite (one_owner T (snd z) u id UT JZ IU Y XU). exact VU.
    - pose proof (find_none _ _ F (fst y) (in_map fst _ _ IY)) as X; cbn beta in X; apply exports_b_in in XM; congruence. }
  rewrite E1 in A. congruence.
Qed.
Lemma split_eq : forall A B (f : A -> B) a b l, map f l = a ++ b -> exists l1 l2, l = l1 ++ l2 /\ map f l1 = a /\ map f l2 = b.
Proof. intros A B f a b l H. destruct (map_eq_app f l a b H) as (l1 & l2 & E & X & Y). exists l1, l2. auto. Qed.
Lemma zip_parts : forall S T, map p0 S = map p0 T -> exists L, map fst L = S /\ map snd L = T /\ Forall (fun y : part * part => p0 (fst y) = p0 (snd y)) L.
Proof.
  induction S as [|s S IH]; intros [|t T] H; cbn [map] in H; try discriminate; [exists []; repeat split; constructor|].
  injection H as E H. destruct (IH T H) as (L & A & B & C). exists ((s, t) :: L). cbn [map fst snd]. rewrite A, B. repeat split. constructor; assumption.
Qed.
Lemma twins : forall fuel S T1 T, Forall (good_part fuel S) S -> Forall (good_part fuel T) T ->
  unique_exports (map p0 S) -> unique_exports (map p0 T) -> orderable (map p0 S) -> map p0 S = map p0 T1 -> incl T1 T -> S = T1.
Proof.
  intros fuel S T1 T GS GT US UT (l & PL & RL) E I1. destruct (zip_parts _ _ E) as (L & <- & <- & EL).
  rewrite map_map in PL. destruct (Permutation_map_inv _ _ PL) as (L' & -> & PL').
  assert (K : forall before rest, L' = before ++ rest ->
    Forall (fun y => In (fst y) (map fst L) /\ In (snd y) T /\ p0 (fst y) = p0 (snd y) /\ p2 (fst y) = p2 (snd y)) before).
  { intros before. induction before as [|y before IH] using rev_ind; intros rest EQ; [constructor|]. rewrite <- app_assoc in EQ. cbn [app] in EQ.
    pose proof (IH _ EQ) as IHB. apply Forall_app. split; [exact IHB|]. constructor; [|constructor].
    assert (IY : In y L) by (eapply Permutation_in; [apply Permutation_sym; exact PL'|rewrite EQ; apply in_elt]).
    assert (J1 : In (fst y) (map fst L)) by (apply in_map; exact IY). assert (J2 : In (snd y) T) by (apply I1, in_map; exact IY).
    rewrite Forall_forall in EL. pose proof (EL y IY) as E0. split; [exact J1|]. split; [exact J2|]. split; [exact E0|].
    apply (twins_step fuel (map fst L) T before (fst y) (snd y) GS GT US UT J1 J2 E0 IHB).
    intros id D. destruct (RL (map (fun y => p0 (fst y)) before) (p0 (fst y)) (map (fun y => p0 (fst y)) rest)) with (id := id) as (m & IM & XM); [|exact D|exists m; auto].
    rewrite EQ, map_app. reflexivity. }
  specialize (K L' [] (eq_sym (app_nil_r L'))).
  assert (EQ : Forall (fun y : part * part => fst y = snd y) L).
  { apply Forall_forall. intros y IY. rewrite Forall_forall in K, EL. destruct (K y (Permutation_in _ PL' IY)) as (J1 & J2 & E0 & E2).
    rewrite Forall_forall in GS, GT. destruct (GS _ J1) as (A1 & _ & A3 & _). destruct (GT _ J2) as (B1 & _ & B3 & _).
    assert (KS : forall id v, known (map fst L) id v -> known T id v).
    { intros id v (u & IU & XU & VU). apply in_map_iff in IU. destruct IU as (z & <- & IZ). destruct (K z (Permutation_in _ PL' IZ)) as (_ & Z2 & Z0 & ZP).
      exists (snd z). rewrite <- Z0, <- ZP. auto. }
    specialize (A3 (lookup T) [] (fun id v H => lookup_known T id v UT (KS id v H))). specialize (B3 (lookup T) [] (fun id v H => lookup_known T id v UT H)).
    rewrite E2 in A3. rewrite A3 in B3. injection B3 as EW E3. rewrite E0 in A1. rewrite A1 in B1. injection B1 as E1.
    destruct y as [[] []]. cbn in *. subst. reflexivity. }
  clear -EQ. induction EQ as [|y L E EQ IH]; [reflexivity|]. cbn [map]. rewrite E, IH. reflexivity.
Qed.

(** ** A program and its parts. *)
Lemma program_parts : forall fuel files ws a, assemble fuel takes_all files = (ws, Ok a) ->
  exists T, Forall2 (fun f m => load_asm_file f = Ok m) files (map p0 T) /\ map p3 T = as_mods a /\ solved fuel T /\ Permutation ws (flat_map pw T) /\
    orderable (map p0 T) /\ unique_exports (map p0 T) /\ (forall x, assembler_contains a x = true <-> exists t, In t T /\ covers (md_owned (p3 t)) x).
Proof.
  intros fuel files ws a H. unfold assemble in H. apply wbind_ok in H. destruct H as (ws0 & a0 & A & H). injection A as <- A.
  destruct (add_files_spec _ _ _ A) as (ms & F & M & R). rewrite (files_modules _ _ _ F) in A. injection A as <-. cbn [as_mods as_map as_names empty_assembler app] in *.
  assert (LD : Forall loaded ms) by (clear -F; induction F; constructor; [eapply load_loaded; eassumption|assumption]).
  pose proof H as H0. destruct (run_parts _ _ _ _ LD H) as (T & E0 & E3 & SV & PW & FO & CV). exists T. rewrite E0.
  split; [exact F|]. split; [exact E3|]. split; [exact SV|]. split; [exact PW|].
  destruct (proj1 (proj1 (order_exact ms)) FO) as [OR UN]. split; [exact OR|]. split; [exact UN|].
  intros x. rewrite <- CV. unfold assembler_contains, rm_contains. apply contains_exact.
  destruct (parts_run fuel T SV) as (w1 & a1 & R1 & _ & _ & _ & K1); [rewrite E0; exact FO|]. rewrite E0, H0 in R1. injection R1 as _ ->. exact K1.
Qed.
Lemma parts_program : forall fuel files T, Forall2 (fun f m => load_asm_file f = Ok m) files (map p0 T) -> solved fuel T -> orderable (map p0 T) -> unique_exports (map p0 T) ->
  exists ws a, assemble fuel takes_all files = (ws, Ok a) /\ as_mods a = map p3 T /\ Permutation ws (flat_map pw T) /\
    (forall x, assembler_contains a x = true <-> exists t, In t T /\ covers (md_owned (p3 t)) x).
Proof.
  intros fuel files T F SV OR UN. destruct (parts_run fuel T SV (proj2 (proj1 (order_exact (map p0 T))) (conj OR UN))) as (ws & a & R & M & W & C & K).
  exists ws, a. unfold assemble. rewrite (files_modules _ _ _ F). cbn [as_mods as_map as_names empty_assembler app wbind].
  split; [exact R|]. split; [exact M|]. split; [exact W|]. intros x. rewrite <- C. unfold assembler_contains, rm_contains. apply contains_exact. exact K.
Qed.
Lemma loads_fun : forall files ms ms', Forall2 (fun f m => load_asm_file f = Ok m) files ms -> Forall2 (fun f m => load_asm_file f = Ok m) files ms' -> ms = ms'.
Proof.
  intros files ms ms' F. revert ms'. induction F as [|f m files ms L F IH]; intros ms' G; inversion G as [|? m' ? ms2 L' G']; subst; [reflexivity|].
  rewrite L in L'. injection L' as <-. f_equal. apply IH, G'.
Qed.
Lemma loads_len : forall files ms, Forall2 (fun f m => load_asm_file f = Ok m) files ms -> List.length files = List.length ms.
Proof. intros files ms F. induction F as [|f m files ms L F IH]; [reflexivity|]. cbn [List.length]. rewrite IH. reflexivity. Qed.
Lemma exports_same : forall fuel T t, good_part fuel T t -> exports (p3 t) = exports (p0 t).
Proof.
  intros fuel T t (R1 & _ & _ & (N & _ & G & _) & _ & (N' & G' & _) & _). apply first_pass_scopes in R1. destruct R1 as (N0 & G0 & _).
  unfold exports. rewrite N, G, N', G', N0, G0. reflexivity.
Qed.
Lemma exports_parts : forall fuel T, Forall (good_part fuel T) T -> flat_map exports (map p3 T) = flat_map exports (map p0 T).
Proof.
  intros fuel T G. assert (H : Forall (fun t => exports (p3 t) = exports (p0 t)) T) by (eapply Forall_impl; [intros t; apply exports_same|exact G]).
  clear G. induction H as [|t T E H IH]; [reflexivity|]. cbn [map flat_map]. rewrite E, IH. reflexivity.
Qed.
Lemma good_sub : forall fuel T T' t, incl T T' -> good_part fuel T t -> good_part fuel T' t.
Proof.
  intros fuel T T' t S (A1 & A2 & A3 & A4). split; [exact A1|]. split; [|split; [|exact A4]].
  - intros ext H. apply A2. intros cur id v G D K. apply H; [exact G|exact D|exact (known_sub _ _ _ _ S K)].
  - intros ext ws H. apply A3. intros id v K. apply H. exact (known_sub _ _ _ _ S K).
Qed.
Lemma pairs_app : forall A (R : A -> A -> Prop) a b, ForallOrdPairs R (a ++ b) <-> ForallOrdPairs R a /\ ForallOrdPairs R b /\ forall x y, In x a -> In y b -> R x y.
Proof.
  intros A R a b. induction a as [|h a IH]; cbn [app].
  - split; [intros H; repeat split; [constructor|exact H|intros x y []]|intros (_ & H & _); exact H].
  - split.
    + intros H. inversion H as [|? ? F P]; subst. apply IH in P. destruct P as (P1 & P2 & P3). apply Forall_app in F. destruct F as [F1 F2].
      split; [constructor; assumption|]. split; [exact P2|]. intros x y [<-|I] J; [rewrite Forall_forall in F2; apply F2, J|apply P3; assumption].
    + intros (P1 & P2 & P3). inversion P1 as [|? ? F P]; subst. constructor.
      * apply Forall_app. split; [exact F|]. apply Forall_forall. intros y J. apply P3; [left; reflexivity|exact J].
      * apply IH. split; [exact P|]. split; [exact P2|]. intros x y I J. apply P3; [right; exact I|exact J].
Qed.

(** ** Adding files. *)
Lemma link_parts : forall fuel P Q S T, Forall2 (fun f m => load_asm_file f = Ok m) P (map p0 S) -> solved fuel S -> orderable (map p0 S) -> unique_exports (map p0 S) ->
  Forall2 (fun f m => load_asm_file f = Ok m) (P ++ Q) (map p0 T) -> solved fuel T -> unique_exports (map p0 T) ->
  exists T2, T = S ++ T2 /\ Forall2 (fun f m => load_asm_file f = Ok m) Q (map p0 T2).
Proof.
  intros fuel P Q S T FS [GS _] OS US FT [GT _] UT. apply Forall2_app_inv_l in FT. destruct FT as (m1 & m2 & F1 & F2 & E).
  destruct (split_eq _ _ _ _ _ _ E) as (T1 & T2 & -> & E1 & E2). subst m1 m2. exists T2. split; [|exact F2]. f_equal. symmetry.
  apply (twins fuel S T1 (T1 ++ T2) GS GT US UT OS); [exact (loads_fun _ _ _ FS F1)|apply incl_appl, incl_refl].
Qed.
Lemma link : forall fuel P Q ws a ws' b, assemble fuel takes_all P = (ws, Ok a) -> assemble fuel takes_all (P ++ Q) = (ws', Ok b) ->
  exists wq mq, Permutation ws' (ws ++ wq) /\ as_mods b = as_mods a ++ mq /\ List.length mq = List.length Q /\
    (forall x, assembler_contains a x = true -> assembler_contains b x = true).
Proof.
  intros fuel P Q ws a ws' b HP HB. destruct (program_parts _ _ _ _ HP) as (S & FS & MS & SS & WS & OS & US & CS).
  destruct (program_parts _ _ _ _ HB) as (T & FT & MT & ST & WT & OT & UT & CT).
  destruct (link_parts fuel P Q S T FS SS OS US FT ST UT) as (T2 & -> & F2).
  exists (flat_map pw T2), (map p3 T2). split.
  - eapply Permutation_trans; [exact WT|]. rewrite flat_map_app. apply Permutation_app_tail, Permutation_sym, WS.
  - split; [rewrite <- MT, <- MS; apply map_app|]. split; [rewrite map_length, <- (map_length p0); symmetry; exact (loads_len _ _ F2)|].
    intros x. rewrite CS, CT. intros (t & I & C). exists t. split; [apply in_or_app; left; exact I|exact C].
Qed.
Lemma respects_app : forall a b, respects a -> respects b -> respects (a ++ b).
Proof.
  intros a b A B before m after E id D. destruct (app_eq_app _ _ _ _ E) as (l & [[E1 E2]|[E1 E2]]).
  - destruct l as [|h l]; cbn [app] in E2.
    + subst a. rewrite app_nil_r in *. destruct (B [] m after (eq_sym E2) id D) as (m' & [] & _).
    + injection E2 as -> E2. exact (A before h l E1 id D).
  - destruct (B l m after E2 id D) as (m' & I & X). exists m'. split; [|exact X]. rewrite E1. apply in_or_app. right. exact I.
Qed.
Lemma join : forall fuel P Q ws a wq b, assemble fuel takes_all P = (ws, Ok a) -> assemble fuel takes_all Q = (wq, Ok b) ->
  (forall id, In id (flat_map exports (as_mods a)) -> ~ In id (flat_map exports (as_mods b))) ->
  (forall x, assembler_contains a x = true -> assembler_contains b x = false) ->
  exists ws' c, assemble fuel takes_all (P ++ Q) = (ws', Ok c) /\ Permutation ws' (ws ++ wq) /\ as_mods c = as_mods a ++ as_mods b /\
    forall x, assembler_contains c x = assembler_contains a x || assembler_contains b x.
Proof.
  intros fuel P Q ws a wq b HP HQ NX NC. destruct (program_parts _ _ _ _ HP) as (S & FS & MS & [GS AS] & WS & (l & PL & RL) & US & CS).
  destruct (program_parts _ _ _ _ HQ) as (T & FT & MT & [GT AT] & WT & (k & PK & RK) & UT & CT).
  rewrite <- MS, <- MT in NX. rewrite (exports_parts _ _ GS), (exports_parts _ _ GT) in NX.
  destruct (parts_program fuel (P ++ Q) (S ++ T)) as (ws' & c & R & M & W & C).
  - rewrite map_app. apply Forall2_app; assumption.
  - split.
    + apply Forall_app. split; [eapply Forall_impl; [|exact GS]; intros t; apply good_sub, incl_appl, incl_refl|eapply Forall_impl; [|exact GT]; intros t; apply good_sub, incl_appr, incl_refl].
    + apply pairs_app. split; [exact AS|]. split; [exact AT|]. intros s t I J x X Y. assert (A : assembler_contains a x = true) by (apply CS; eauto).
      apply NC in A. assert (B : assembler_contains b x = true) by (apply CT; eauto). congruence.
  - exists (l ++ k). rewrite map_app. split; [apply Permutation_app; assumption|apply respects_app; assumption].
  - unfold unique_exports. rewrite map_app, flat_map_app. apply nodup_app. auto.
  - exists ws', c. split; [exact R|]. split; [eapply Permutation_trans; [exact W|]; rewrite flat_map_app; apply Permutation_app; apply Permutation_sym; assumption|].
    split; [rewrite M, map_app, MS, MT; reflexivity|]. intros x. apply eq_true_iff_eq. rewrite orb_true_iff, C, CS, CT. split.
    + intros (t & I & X). apply in_app_or in I. destruct I as [I|I]; [left|right]; eauto.
    + intros [(t & I & X)|(t & I & X)]; exists t; (split; [apply in_or_app; auto|exact X]).
Qed.
Lemma joined : forall fuel P Q ws a wq b ws' c, assemble fuel takes_all P = (ws, Ok a) -> assemble fuel takes_all Q = (wq, Ok b) ->
  assemble fuel takes_all (P ++ Q) = (ws', Ok c) ->
  (forall id, In id (flat_map exports (as_mods a)) -> ~ In id (flat_map exports (as_mods b))) /\
  (forall x, assembler_contains a x = true -> assembler_contains b x = false).
Proof.
  intros fuel P Q ws a wq b ws' c HP HQ HC. destruct (program_parts _ _ _ _ HP) as (S & FS & MS & SS & WS & OS & US & CS).
  destruct (program_parts _ _ _ _ HQ) as (V & FV & MV & SV & WV & OV & UV & CV).
  destruct (program_parts _ _ _ _ HC) as (T & FT & MT & ST & WT & OT & UT & CT).
  destruct (link_parts fuel P Q S T FS SS OS US FT ST UT) as (T2 & -> & F2).
  assert (V = T2).
  { apply (twins fuel V T2 (S ++ T2)); [exact (proj1 SV)|exact (proj1 ST)|exact UV|exact UT|exact OV|exact (loads_fun _ _ _ FV F2)|apply incl_appr, incl_refl]. }
  subst T2. split.
  - rewrite <- MS, <- MV, (exports_parts _ _ (proj1 SS)), (exports_parts _ _ (proj1 SV)).
    unfold unique_exports in UT. rewrite map_app, flat_map_app in UT. apply nodup_app in UT. exact (proj2 (proj2 UT)).
  - intros x A. apply not_true_is_false. intros B. apply CS in A. apply CV in B. destruct A as (s & IS & XS). destruct B as (t & IT & XT).
    destruct ST as [_ AP]. apply pairs_app in AP. exact (proj2 (proj2 AP) s t IS IT x XS XT).
Qed.
(** For sinks that judge each write by itself. *)
Lemma link_judged : forall fuel sk P Q ws a ws' b, judges sk -> assemble fuel sk P = (ws, Ok a) -> assemble fuel sk (P ++ Q) = (ws', Ok b) ->
  exists wq mq, Permutation ws' (ws ++ wq) /\ as_mods b = as_mods a ++ mq /\ List.length mq = List.length Q /\
    (forall x, assembler_contains a x = true -> assembler_contains b x = true).
Proof.
  intros fuel sk P Q ws a ws' b J HP HB. apply (judged_run _ _ _ _ _ J) in HP. apply (judged_run _ _ _ _ _ J) in HB.
  exact (link _ _ _ _ _ _ _ (proj1 HP) (proj1 HB)).
Qed.
Lemma join_judged : forall fuel sk P Q ws a wq b, judges sk -> assemble fuel sk P = (ws, Ok a) -> assemble fuel sk Q = (wq, Ok b) ->
  ((exists ws' c, assemble fuel sk (P ++ Q) = (ws', Ok c)) <->
   (forall id, In id (flat_map exports (as_mods a)) -> ~ In id (flat_map exports (as_mods b))) /\
   (forall x, assembler_contains a x = true -> assembler_contains b x = false)) /\
  (forall ws' c, assemble fuel sk (P ++ Q) = (ws', Ok c) -> Permutation ws' (ws ++ wq) /\ as_mods c = as_mods a ++ as_mods b /\
    forall x, assembler_contains c x = assembler_contains a x || assembler_contains b x).
Proof.
  intros fuel sk P Q ws a wq b J HP HQ. apply (judged_run _ _ _ _ _ J) in HP. apply (judged_run _ _ _ _ _ J) in HQ. destruct HP as [HP FP], HQ as [HQ FQ].
  assert (K : forall ws' c, assemble fuel sk (P ++ Q) = (ws', Ok c) ->
   (forall id, In id (flat_map exports (as_mods a)) -> ~ In id (flat_map exports (as_mods b))) /\
   (forall x, assembler_contains a x = true -> assembler_contains b x = false)).
  { intros ws' c H. apply (judged_run _ _ _ _ _ J) in H. exact (joined _ _ _ _ _ _ _ _ _ HP HQ (proj1 H)). }
  split; [split|].
  - intros (ws' & c & H). exact (K _ _ H).
  - intros [N C]. destruct (join _ _ _ _ _ _ _ HP HQ N C) as (ws' & c & H & PW & _). exists ws', c. apply (judged_run _ _ _ _ _ J). split; [exact H|].
    eapply Permutation_Forall; [apply Permutation_sym; exact PW|]. apply Forall_app. auto.
  - intros ws' c H. destruct (K _ _ H) as [N C]. destruct (join _ _ _ _ _ _ _ HP HQ N C) as (w2 & c2 & H2 & X). apply (judged_run _ _ _ _ _ J) in H. destruct H as [H _].
    rewrite H in H2. injection H2 as <- <-. exact X.
Qed.

(** ** What a file takes from the others. *)
Lemma value_code : forall m m' id, same_code m m' -> value_for_name m' id = value_for_name m id.
Proof. intros m m' id (N & L & G & _). unfold value_for_name. rewrite N, L, G. reflexivity. Qed.
Lemma tells_known : forall fuel T S id v, Forall (good_part fuel T) S -> (tells (map p3 S) id v <-> known S id v).
Proof.
  intros fuel T S id v G. rewrite Forall_forall in G. split.
  - intros (m & I & X & V). apply in_map_iff in I. destruct I as (t & <- & I). pose proof (G t I) as GT. exists t. split; [exact I|].
    rewrite (exports_same _ _ _ GT) in X. split; [exact X|]. destruct GT as (_ & _ & _ & C & _). rewrite (value_code _ _ _ C) in V. exact V.
  - intros (t & I & X & V). pose proof (G t I) as GT. exists (p3 t). split; [apply in_map; exact I|]. rewrite (exports_same _ _ _ GT). split; [exact X|].
    destruct GT as (_ & _ & _ & C & _). rewrite (value_code _ _ _ C). exact V.
Qed.
Lemma interface_parts : forall fuel S V S' V', Forall (good_part fuel (S ++ V)) (S ++ V) -> Forall (good_part fuel (S' ++ V')) (S' ++ V') ->
  unique_exports (map p0 (S ++ V)) -> unique_exports (map p0 (S' ++ V')) -> orderable (map p0 (S ++ V)) -> map p0 V = map p0 V' ->
  (forall id, In id (flat_map exports (map p0 S)) -> In id (flat_map exports (map p0 S'))) ->
  (forall id v, known S' id v -> known S id v) -> (forall id v, known S id v -> known S' id v) -> V = V'.
Proof.
  intros fuel S V S' V' GT GT' UT UT' (l & PL & RL) E XS KB KF. destruct (zip_parts _ _ E) as (L & <- & <- & EL).
  destruct (Permutation_map_inv _ _ PL) as (T & -> & PT). rewrite Forall_forall in GT, GT', EL.
  assert (K : forall before rest, T = before ++ rest -> forall y, In y L -> In (fst y) before -> p2 (fst y) = p2 (snd y)).
  { intros before. induction before as [|t before IH] using rev_ind; intros rest EQ y IY IB; [destruct IB|]. rewrite <- app_assoc in EQ. cbn [app] in EQ.
    apply in_app_or in IB. destruct IB as [IB|[->|[]]]; [exact (IH _ EQ y IY IB)|].
    assert (J1 : In (fst y) (S ++ map fst L)) by (apply in_or_app; right; apply in_map; exact IY).
    assert (J2 : In (snd y) (S' ++ map snd L)) by (apply in_or_app; right; apply in_map; exact IY).
    destruct (GT _ J1) as (A1 & A2 & _). destruct (GT' _ J2) as (B1 & B2 & _). pose proof (EL y IY) as E0.
    assert (E1 : p1 (fst y) = p1 (snd y)) by congruence.
    assert (A : run_second_pass (fun _ => lookup (S ++ map fst L)) (p1 (fst y)) = Ok (p2 (fst y))).
    { apply A2. intros cur id v _ _ KN. exact (lookup_known _ _ _ UT KN). }
    assert (B : run_second_pass (fun _ => lookup (S ++ map fst L)) (p1 (snd y)) = Ok (p2 (snd y))).
    { apply B2. intros cur id v _ D (u & IU & XU & VU). apply (lookup_known _ _ _ UT). rewrite <- E0 in D.
      destruct (RL (map p0 before) (p0 (fst y)) (map p0 rest)) with (id := id) as (m & IM & XM); [rewrite EQ, map_app; reflexivity|exact D|].
      apply in_map_iff in IM. destruct IM as (w & <- & IW).
      assert (IT : In w (S ++ map fst L)) by (eapply Permutation_in; [apply Permutation_sym; exact PT|rewrite EQ; apply in_or_app; left; exact IW]).
      apply in_app_or in IT. destruct IT as [IS|IV].
      - pose proof (XS id (in_exports _ _ _ IS XM)) as X'. apply in_flat_map in X'. destruct X' as (m' & IM' & XM'). apply in_map_iff in IM'. destruct IM' as (w' & <- & IW').
        assert (w' = u) by (exact (one_owner _ _ _ _ UT' (in_or_app _ _ _ (or_introl IW')) IU XM' XU)). subst w'.
        apply (known_sub S); [apply incl_appl, incl_refl|]. apply KB. exists u. auto.
      - apply in_map_iff in IV. destruct IV as (z & <- & IZ). pose proof (EL z IZ) as EZ. rewrite EZ in XM.
        assert (snd z = u) by (exact (one_owner _ _ _ _ UT' (in_or_app _ _ _ (or_intror (in_map snd _ _ IZ))) IU XM XU)). subst u.
        rewrite <- (IH _ EQ z IZ IW) in VU. rewrite <- EZ in XU. exists (fst z). split; [apply in_or_app; right; apply in_map; exact IZ|auto]. }
    rewrite E1 in A. congruence. }
  assert (K2 : forall y, In y L -> p2 (fst y) = p2 (snd y)).
  { intros y IY. apply (K T [] (eq_sym (app_nil_r T)) y IY). eapply Permutation_in; [exact PT|]. apply in_or_app. right. apply in_map. exact IY. }
  assert (EQ : Forall (fun y : part * part => fst y = snd y) L).
  { apply Forall_forall. intros y IY. pose proof (K2 y IY) as E2. pose proof (EL y IY) as E0.
    destruct (GT (fst y)) as (A1 & _ & A3 & _); [apply in_or_app; right; apply in_map; exact IY|].
    destruct (GT' (snd y)) as (B1 & _ & B3 & _); [apply in_or_app; right; apply in_map; exact IY|].
    specialize (A3 (lookup (S' ++ map snd L)) []). specialize (B3 (lookup (S' ++ map snd L)) [] (fun id v H => lookup_known _ id v UT' H)).
    rewrite E2, B3 in A3.
    assert (HK : forall id v, known (S ++ map fst L) id v -> lookup (S' ++ map snd L) id = Ok v).
    { intros id v (u & IU & XU & VU). apply (lookup_known _ _ _ UT'). apply in_app_or in IU. destruct IU as [IU|IU].
      - apply (known_sub S'); [apply incl_appl, incl_refl|]. apply KF. exists u. auto.
      - apply in_map_iff in IU. destruct IU as (z & <- & IZ). exists (snd z). rewrite <- (EL z IZ), <- (K2 z IZ). split; [apply in_or_app; right; apply in_map; exact IZ|auto]. }
    specialize (A3 HK). injection A3 as EW E3. rewrite E0 in A1. rewrite A1 in B1. injection B1 as E1.
    destruct y as [[] []]. cbn in *. subst. reflexivity. }
  clear -EQ. induction EQ as [|y L E EQ IH]; [reflexivity|]. cbn [map]. rewrite E, IH. reflexivity.
Qed.
Lemma part_owned : forall fuel T t, loaded (p0 t) -> good_part fuel T t -> forall x, covers (md_owned (p3 t)) x <-> In x (flat_map touched (pw t)).
Proof.
  intros fuel T t (_ & _ & O) (R1 & _ & _ & _ & _ & G & (ext & M)) x. apply first_pass_owned in R1.
  assert (O2 : md_owned (p2 t) = []) by (destruct G as (_ & _ & _ & G & _); congruence).
  destruct (module_assemble_spec takes_all ext [] (p2 t) (pw t) (p3 t)) as (rs & E & _ & _ & _ & CV & _); [rewrite O2; constructor|exact M|].
  cbn [app] in E. subst rs. rewrite CV, O2, covers_nil. tauto.
Qed.
Lemma split_mods : forall (T : list part) mp mq n, map p3 T = mp ++ mq -> List.length mp = n -> exists S V, T = S ++ V /\ mp = map p3 S /\ mq = map p3 V /\ List.length S = n.
Proof.
  intros T mp mq n H L. destruct (split_eq _ _ _ _ _ _ H) as (S & V & -> & E1 & E2). exists S, V. split; [reflexivity|]. split; [auto|]. split; [auto|].
  rewrite <- L, <- E1, map_length. reflexivity.
Qed.
Lemma split_files : forall P Q (S V : list part), Forall2 (fun f m => load_asm_file f = Ok m) (P ++ Q) (map p0 (S ++ V)) -> List.length S = List.length P ->
  Forall2 (fun f m => load_asm_file f = Ok m) Q (map p0 V).
Proof.
  intros P Q S V F L. rewrite map_app in F. apply Forall2_app_inv_l in F. destruct F as (m1 & m2 & F1 & F2 & E).
  assert (LL : List.length (map p0 S) = List.length m1) by (rewrite <- (loads_len _ _ F1), map_length; exact L).
  apply app_eq_app in E. destruct E as (l & [[E1 E2]|[E1 E2]]).
  - destruct l; [cbn in E2; subst; exact F2|exfalso; rewrite E1, app_length in LL; cbn in LL; lia].
  - destruct l; [cbn in E2; subst; exact F2|exfalso; rewrite E1, app_length in LL; cbn in LL; lia].
Qed.
Lemma load_parts : forall files T, Forall2 (fun f m => load_asm_file f = Ok m) files (map p0 T) -> Forall (fun t => loaded (p0 t)) T.
Proof.
  intros files T. revert files. induction T as [|t T IH]; intros files F; [constructor|]. cbn [map] in F. inversion F as [|f ? fs ? L F']; subst.
  constructor; [exact (load_loaded _ _ L)|exact (IH _ F')].
Qed.
Lemma interface : forall fuel P P' Q ws a ws' a' mp mq mp' mq', assemble fuel takes_all (P ++ Q) = (ws, Ok a) -> assemble fuel takes_all (P' ++ Q) = (ws', Ok a') ->
  as_mods a = mp ++ mq -> List.length mp = List.length P -> as_mods a' = mp' ++ mq' -> List.length mp' = List.length P' ->
  (forall id, In id (flat_map exports mp) <-> In id (flat_map exports mp')) -> (forall id v, tells mp id v <-> tells mp' id v) ->
  mq = mq' /\ forall w m x, In w ws -> In m mq -> In x (touched w) -> covers (md_owned m) x -> In w ws'.
Proof.
  intros fuel P P' Q ws a ws' a' mp mq mp' mq' H H' EM LP EM' LP' X K.
  destruct (program_parts _ _ _ _ H) as (T & FT & MT & [GT AT] & WT & OT & UT & _). destruct (program_parts _ _ _ _ H') as (T' & FT' & MT' & [GT' AT'] & WT' & OT' & UT' & _).
  rewrite <- MT in EM. rewrite <- MT' in EM'. destruct (split_mods _ _ _ _ EM LP) as (S & V & -> & -> & -> & LS). destruct (split_mods _ _ _ _ EM' LP') as (S' & V' & -> & -> & -> & LS').
  pose proof GT as G0. pose proof GT' as G0'. apply Forall_app in G0. apply Forall_app in G0'.
  assert (XS : forall fuel T S, Forall (good_part fuel T) S -> flat_map exports (map p3 S) = flat_map exports (map p0 S)).
  { intros f R U G. induction G as [|t U G GU IH]; [reflexivity|]. cbn [map flat_map]. rewrite (exports_same _ _ _ G), IH. reflexivity. }
  assert (V = V').
  { apply (interface_parts fuel S V S' V' GT GT' UT UT' OT).
    - exact (loads_fun _ _ _ (split_files _ _ _ _ FT LS) (split_files _ _ _ _ FT' LS')).
    - intros id I. rewrite <- (XS _ _ _ (proj1 G0')). apply X. rewrite (XS _ _ _ (proj1 G0)). exact I.
    - intros id v. rewrite <- (tells_known _ _ _ id v (proj1 G0')), <- (tells_known _ _ _ id v (proj1 G0)). apply K.
    - intros id v. rewrite <- (tells_known _ _ _ id v (proj1 G0')), <- (tells_known _ _ _ id v (proj1 G0)). apply K. }
  subst V'. split; [reflexivity|]. intros w m x IW IM TX CX. apply in_map_iff in IM. destruct IM as (t & <- & IT).
  apply (Permutation_in w WT), in_flat_map in IW. destruct IW as (u & IU & IW).
  assert (CU : covers (md_owned (p3 u)) x).
  { pose proof (load_parts _ _ FT) as LD. rewrite Forall_forall in LD, GT. apply (part_owned _ _ _ (LD u IU) (GT u IU)). apply in_flat_map. exists w. auto. }
  apply (Permutation_in w (Permutation_sym WT')). rewrite flat_map_app. apply in_or_app. right. apply in_flat_map. apply in_app_or in IU. destruct IU as [IU|IU].
  - exfalso. apply pairs_app in AT. exact (proj2 (proj2 AT) u t IU IT x CU CX).
  - exists u. split; assumption.
Qed.
Lemma interface_judged : forall fuel sk P P' Q ws a ws' a' mp mq mp' mq', judges sk -> assemble fuel sk (P ++ Q) = (ws, Ok a) -> assemble fuel sk (P' ++ Q) = (ws', Ok a') ->
  as_mods a = mp ++ mq -> List.length mp = List.length P -> as_mods a' = mp' ++ mq' -> List.length mp' = List.length P' ->
  (forall id, In id (flat_map exports mp) <-> In id (flat_map exports mp')) -> (forall id v, tells mp id v <-> tells mp' id v) ->
  mq = mq' /\ forall w m x, In w ws -> In m mq -> In x (touched w) -> covers (md_owned m) x -> In w ws'.
Proof.
  intros fuel sk P P' Q ws a ws' a' mp mq mp' mq' J H H'. apply (judged_run _ _ _ _ _ J) in H. apply (judged_run _ _ _ _ _ J) in H'.
  exact (interface _ _ _ _ _ _ _ _ _ _ _ _ (proj1 H) (proj1 H')).
Qed.
