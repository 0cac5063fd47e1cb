(** The first pass analyses every statement in states that cover all ways of getting there. *)
From Verif Require Import Base ModelNumeric ModelExpr ModelMnemonic ModelAMode ModelOpcode ModelState ModelInstr ModelToken ModelStatement
  ModelParse ModelMap ModelModule SpecArith SpecText SpecScope SpecState SpecAssemble SpecFlow BaseProofs MapProofs ArithProofs StateProofs
  ExecProofs OrderProofs LoadProofs ScopeProofs PassProofs LayoutProofs ProgramProofs TermProofs SafeProofs SafeRunProofs.
Open Scope list_scope.
Open Scope Z_scope.

(** ** One step of the loop. *)
(** The states a line passes on. *)
Inductive flows (m : module) (l : line) (k : Z) (s : estate) : Z -> estate -> Prop :=
| f_next : forall s', stmt_is_exit (ln_stmt l) = false -> stmt_execute (ln_stmt l) s = Ok s' -> flows m l k s (k + 1) s'
| f_branch : forall i n j s', ln_stmt l = SInstr i -> is_local_branch i = true -> simple_identifier_opt (i_arg1 i) = Some n ->
    local_index m n (ln_scopes l) = Ok j -> execute_branch i s = Ok s' -> flows m l k s j s'.

Definition grown (st st' : omap estate) : Prop :=
  forall j t, om_find j st = Some t -> exists t', om_find j st' = Some t' /\ (t' = t \/ exists u, t' = es_merge t u).
Definition ext (s t : estate) : Prop := forall o c, modes_ok (c_modes c) -> describes_modes o s c -> describes_modes o t c.
Lemma ext_refl : forall s, ext s s.
Proof. intros s o c _ H. exact H. Qed.
Lemma ext_trans : forall a b c, ext a b -> ext b c -> ext a c.
Proof. intros a b c H K o p M D. apply K; [exact M|]. apply H; assumption. Qed.
Lemma ext_merge_l : forall a b, ext a (es_merge a b).
Proof. intros a b o c M D. apply merge_modes; auto. Qed.
Lemma ext_merge_r : forall a b, ext b (es_merge a b).
Proof. intros a b o c M D. apply merge_modes; auto. Qed.

Definition pending (st : omap estate) (j : Z) (s : estate) : Prop := exists t, om_find j st = Some t /\ ext s t.
Lemma add_pending : forall k s st j t, sorted_keys st -> pending st j t -> pending (add_state k s st) j t.
Proof.
  intros k s st j t S (u & F & E). unfold pending, add_state. rewrite om_find_merge by exact S. destruct (Z.eqb_spec k j) as [->|N].
  - rewrite F. exists (es_merge u s). split; [reflexivity|]. eapply ext_trans; [exact E|apply ext_merge_l].
  - exists u. split; assumption.
Qed.
Lemma add_new : forall k s st, sorted_keys st -> pending (add_state k s st) k s.
Proof.
  intros k s st S. unfold pending, add_state. rewrite om_find_merge by exact S. rewrite Z.eqb_refl. destruct (om_find k st) as [old|].
  - exists (es_merge old s). split; [reflexivity|apply ext_merge_r].
  - exists s. split; [reflexivity|apply ext_refl].
Qed.
(** Properties of single states that merging keeps. *)
Definition merges (P : Z -> estate -> Prop) : Prop := forall k a b, P k a -> P k b -> P k (es_merge a b).
Lemma add_all : forall (P : Z -> estate -> Prop) k s st, merges P -> sorted_keys st -> (forall j t, om_find j st = Some t -> P j t) -> P k s ->
  forall j t, om_find j (add_state k s st) = Some t -> P j t.
Proof.
  intros P k s st M S H K j t F. unfold add_state in F. rewrite om_find_merge in F by exact S. destruct (Z.eqb_spec k j) as [->|N]; [|auto].
  injection F as <-. destruct (om_find j st) eqn:E; [apply M; auto|exact K].
Qed.

Lemma step_visits : forall m ls k s rest ls' st', sorted_keys ((k, s) :: rest) ->
  first_pass_step m ls ((k, s) :: rest) = Ok (ls', st') ->
  exists l, znth ls k = Some l /\
  ((ln_reached l = true /\ ln_in l = s /\ ls' = ls /\ st' = rest) \/
   (~ (ln_reached l = true /\ ln_in l = s) /\ ls' = zset k (ln_visit s l) ls /\ sorted_keys st' /\ (exists s', stmt_execute (ln_stmt l) s = Ok s') /\
    (forall j t, pending ((k, s) :: rest) j t -> pending st' j t) /\
    (forall j s', flows m l k s j s' -> pending st' j s') /\
    (forall P : Z -> estate -> Prop, merges P -> (forall j t, om_find j ((k, s) :: rest) = Some t -> P j t) ->
       (forall j s', flows m l k s j s' -> P j s') -> forall j t, om_find j st' = Some t -> P j t) /\
    (forall j, (forall s', ~ flows m l k s j s') -> om_find j st' = om_find j ((k, s) :: rest)))).
Proof.
  intros m ls k s rest ls' st' S H. unfold first_pass_step in H. cbv zeta in H.
  destruct (k =? zlen ls); [discriminate H|]. destruct (znth ls k) as [l|] eqn:L; [|discriminate H]. exists l. split; [reflexivity|].
  destruct (ln_reached l && es_eqb (ln_in l) s) eqn:RE.
  { apply andb_true_iff in RE as [R E]. apply es_eqb_eq in E. injection H as <- <-. left. auto. }
  right. split.
  { intros [R E]. rewrite R in RE. cbn in RE. assert (es_eqb (ln_in l) s = true) by (apply es_eqb_eq; exact E). congruence. }
  bok H as next E. set (st := ((k, s) :: rest : omap estate)) in *.
  assert (FN : stmt_is_exit (ln_stmt l) = false -> flows m l k s (k + 1) next) by (intros X; apply f_next; assumption).
  match type of H with context [?t] => match t with (if stmt_is_exit (ln_stmt l) then _ else _) => set (st1 := t) in * end end.
  assert (A1 : sorted_keys st1 /\ (forall j t, pending st j t -> pending st1 j t) /\
    (stmt_is_exit (ln_stmt l) = false -> pending st1 (k + 1) next) /\
    (forall P : Z -> estate -> Prop, merges P -> (forall j t, om_find j st = Some t -> P j t) ->
       (forall j s', flows m l k s j s' -> P j s') -> forall j t, om_find j st1 = Some t -> P j t) /\
    (forall j, (forall s', ~ flows m l k s j s') -> om_find j st1 = om_find j st)).
  { unfold st1. destruct (stmt_is_exit (ln_stmt l)); [split; [exact S|split; [auto|split; [discriminate|split; auto]]]|].
    split; [apply add_state_sorted; exact S|]. split; [intros j t; apply add_pending; exact S|]. split; [intros _; apply add_new; exact S|].
    split; [intros P M A B; apply add_all; auto|]. intros j N. unfold add_state. rewrite om_find_merge by exact S.
    destruct (Z.eqb_spec (k + 1) j) as [X|X]; [|reflexivity]. subst j. destruct (N next). auto. }
  clearbody st1. destruct A1 as (S1 & P1 & N1 & Q1 & O1).
  assert (NEXT : forall s', stmt_is_exit (ln_stmt l) = false -> stmt_execute (ln_stmt l) s = Ok s' -> pending st1 (k + 1) s').
  { intros s' X Y. assert (s' = next) as -> by congruence. auto. }
  assert (PLAIN : ls' = zset k (ln_visit s l) ls /\ st' = st1 ->
     (forall i n j, ln_stmt l = SInstr i -> is_local_branch i = true -> simple_identifier_opt (i_arg1 i) = Some n -> local_index m n (ln_scopes l) = Ok j -> False) ->
     ls' = zset k (ln_visit s l) ls /\ sorted_keys st' /\ (exists s', stmt_execute (ln_stmt l) s = Ok s') /\
    (forall j t, pending st j t -> pending st' j t) /\ (forall j s', flows m l k s j s' -> pending st' j s') /\
    (forall P : Z -> estate -> Prop, merges P -> (forall j t, om_find j st = Some t -> P j t) ->
       (forall j s', flows m l k s j s' -> P j s') -> forall j t, om_find j st' = Some t -> P j t) /\
    (forall j, (forall s', ~ flows m l k s j s') -> om_find j st' = om_find j st)).
  { intros [-> ->] NB. split; [reflexivity|]. split; [exact S1|]. split; [eauto|]. split; [exact P1|]. split; [|split; [exact Q1|exact O1]].
    intros j s' F. destruct F as [s' X Y|i n j s' I B A J X]; [auto|]. destruct (NB i n j); assumption. }
  assert (BR : forall i, ln_stmt l = SInstr i -> is_local_branch i = false -> forall i' n j, ln_stmt l = SInstr i' -> is_local_branch i' = true ->
      simple_identifier_opt (i_arg1 i') = Some n -> local_index m n (ln_scopes l) = Ok j -> False) by (intros; congruence).
  destruct (ln_stmt l) as [i|d] eqn:ST; [|injection H as <- <-; apply PLAIN; [auto|discriminate]].
  destruct (is_local_branch i) eqn:B; [|injection H as <- <-; apply PLAIN; [auto|eapply BR; eauto]].
  destruct (simple_identifier_opt (i_arg1 i)) as [t|] eqn:A; [|discriminate H].
  destruct (local_index m t (ln_scopes l)) as [idx|e|u|] eqn:J; [|discriminate H..]. bok H as n2 E2. injection H as <- <-.
  assert (FB : flows m l k s idx n2) by (eapply f_branch; eauto).
  clear PLAIN. split; [reflexivity|]. split; [apply add_state_sorted; exact S1|]. split; [eauto|].
  split; [intros j u P; apply add_pending; auto|]. split; [|split].
  - intros j s' F. destruct F as [s' X Y|i' n j s' I' B' A' J' X]; [apply add_pending; [exact S1|]; rewrite ST in X, Y; exact (NEXT s' X Y)|].
    rewrite ST in I'. injection I' as <-. assert (n = t) as -> by congruence. assert (j = idx) as -> by congruence.
    assert (s' = n2) as -> by congruence. apply add_new. exact S1.
  - intros P M HP HF. apply add_all; [exact M|exact S1|exact (Q1 P M HP HF)|exact (HF _ _ FB)].
  - intros j N. unfold add_state. rewrite om_find_merge by exact S1. destruct (Z.eqb_spec idx j) as [X|X]; [subst; destruct (N _ FB)|apply O1; exact N].
Qed.

(** ** The invariant.  [V]: the states in which lines have been analysed. *)
Definition covered (V : Z -> estate -> Prop) (st : omap estate) (j : Z) (s : estate) : Prop :=
  (exists t, V j t /\ ext s t) \/ pending st j s.
Record inv (m : module) (P : Z -> estate -> Prop) (E : Z -> estate -> Prop) (V : Z -> estate -> Prop) (ls : list line) (st : omap estate) : Prop := Inv {
  v_sorted : sorted_keys st;
  v_entry : forall j s, E j s -> covered V st j s;
  v_pending : forall j t, om_find j st = Some t -> P j t;
  v_visited : forall k s, V k s -> P k s /\ exists l, znth ls k = Some l /\ ln_reached l = true /\ (exists s', stmt_execute (ln_stmt l) s = Ok s') /\
    forall j s', flows m l k s j s' -> covered V st j s';
  v_reached : forall k l, znth ls k = Some l -> ln_reached l = true -> V k (ln_in l) }.
Definition closed_under (m : module) (ls : list line) (P : Z -> estate -> Prop) : Prop :=
  forall k l s j s', znth ls k = Some l -> P k s -> flows m l k s j s' -> P j s'.
Definition core2 (l : line) := (ln_stmt l, ln_scopes l).
Lemma flows_core : forall m l l' k s j s', core2 l = core2 l' -> flows m l k s j s' -> flows m l' k s j s'.
Proof.
  intros m l l' k s j s' C F. unfold core2 in C. injection C as C1 C2. destruct F as [s' X Y|i n j s' I B A J X].
  - apply f_next; congruence.
  - eapply f_branch; [rewrite <- C1; exact I|exact B|exact A|rewrite <- C2; exact J|exact X].
Qed.
Lemma visit_core : forall s l, core2 (ln_visit s l) = core2 l.
Proof. reflexivity. Qed.
Lemma closed_visit : forall m ls P k s l, znth ls k = Some l -> closed_under m ls P -> closed_under m (zset k (ln_visit s l) ls) P.
Proof.
  intros m ls P k s l L C k' l' s' j s2 L' HP F. destruct (Z.eq_dec k k') as [<-|N].
  - rewrite znth_zset_same in L' by (eapply znth_some; exact L). injection L' as <-. eapply C; [exact L|exact HP|].
    eapply flows_core; [|exact F]. apply visit_core.
  - rewrite znth_zset_other in L' by exact N. eapply C; eassumption.
Qed.
Lemma inv_step : forall m P E V ls st ls' st', merges P -> closed_under m ls P -> inv m P E V ls st -> st <> [] ->
  first_pass_step m ls st = Ok (ls', st') ->
  (exists k s rest, st = (k, s) :: rest /\
   ((ls' = ls /\ st' = rest /\ inv m P E V ls' st') \/
    (exists l, znth ls k = Some l /\ ~ (ln_reached l = true /\ ln_in l = s) /\ ls' = zset k (ln_visit s l) ls /\
       (forall j, (forall s', ~ flows m l k s j s') -> om_find j st' = om_find j st) /\
       inv m P E (fun k' s' => V k' s' \/ k' = k /\ s' = s) ls' st'))) /\
  closed_under m ls' P.
Proof.
  intros m P E V ls [|[k s] rest] ls' st' MP CL I NE H; [congruence|]. destruct I as [S EN PE VI RE].
  destruct (step_visits _ _ _ _ _ _ _ S H) as (l & L & [(R & LI & -> & ->)|(NV & -> & S' & X & P1 & F1 & Q1 & O1)]).
  - split; [|exact CL]. exists k, s, rest. split; [reflexivity|]. left. split; [reflexivity|]. split; [reflexivity|].
    assert (VK : V k s) by (rewrite <- LI; apply RE; assumption).
    assert (COV : forall j t, covered V ((k, s) :: rest) j t -> covered V rest j t).
    { intros j t [C|(u & F & X)]; [left; exact C|]. cbn [om_find] in F. destruct (Z.eqb_spec k j) as [<-|N].
      - injection F as <-. left. exists s. split; assumption.
      - right. exists u. split; assumption. }
    constructor.
    + apply S.
    + intros j t HE. apply COV, EN, HE.
    + intros j t F. apply PE. cbn [om_find]. destruct (Z.eqb_spec k j) as [<-|N]; [|exact F]. exfalso.
      apply om_find_in in F. destruct S as [S0 _]. apply S0 in F. lia.
    + intros k' s' HV. destruct (VI k' s' HV) as (HP & l' & L' & R' & X' & F'). split; [exact HP|]. exists l'. repeat split; auto.
    + exact RE.
  - split; [|apply closed_visit; assumption]. exists k, s, rest. split; [reflexivity|]. right. exists l.
    split; [exact L|]. split; [exact NV|]. split; [reflexivity|]. split; [exact O1|].
    pose proof (znth_some _ _ _ _ L) as RNG.
    assert (PK : P k s) by (apply PE; cbn [om_find]; rewrite Z.eqb_refl; reflexivity).
    set (V' := fun k' s' => V k' s' \/ k' = k /\ s' = s).
    assert (COV : forall j t, covered V ((k, s) :: rest) j t -> covered V' st' j t).
    { intros j t [(u & HV & HX)|HP]; [left; exists u; split; [left; exact HV|exact HX]|right; apply P1; exact HP]. }
    constructor.
    + exact S'.
    + intros j t HE. apply COV, EN, HE.
    + apply Q1; [exact MP|exact PE|]. intros j s' F. eapply CL; [exact L|exact PK|exact F].
    + intros k' s' [HV|[-> ->]].
      * destruct (VI k' s' HV) as (HP & l' & L' & R' & X' & F'). split; [exact HP|].
        destruct (Z.eq_dec k k') as [<-|N].
        -- assert (l' = l) as -> by congruence. exists (ln_visit s l). rewrite znth_zset_same by exact RNG. split; [reflexivity|].
           split; [reflexivity|]. split; [exact X'|]. intros j s2 F. apply COV, F'. eapply flows_core; [|exact F]. apply visit_core.
        -- exists l'. rewrite znth_zset_other by exact N. split; [exact L'|]. split; [exact R'|]. split; [exact X'|].
           intros j s2 F. apply COV, F'. exact F.
      * split; [exact PK|]. exists (ln_visit s l). rewrite znth_zset_same by exact RNG. split; [reflexivity|]. split; [reflexivity|].
        split; [exact X|]. intros j s2 F. right. apply F1. eapply flows_core; [|exact F]. apply visit_core.
    + intros k' l' L' R'. destruct (Z.eq_dec k k') as [<-|N].
      * rewrite znth_zset_same in L' by exact RNG. injection L' as <-. right. auto.
      * rewrite znth_zset_other in L' by exact N. left. apply RE; assumption.
Qed.

Lemma loop_inv : forall m P E (Q : (Z -> estate -> Prop) -> list line -> omap estate -> Prop), merges P ->
  (forall V ls k s rest, Q V ls ((k, s) :: rest) -> sorted_keys ((k, s) :: rest) -> Q V ls rest) ->
  (forall V ls k s rest l st', Q V ls ((k, s) :: rest) -> sorted_keys ((k, s) :: rest) -> znth ls k = Some l -> ~ (ln_reached l = true /\ ln_in l = s) ->
     (forall j, (forall s', ~ flows m l k s j s') -> om_find j st' = om_find j ((k, s) :: rest)) -> sorted_keys st' ->
     Q (fun k' s' => V k' s' \/ k' = k /\ s' = s) (zset k (ln_visit s l) ls) st') ->
  forall fuel V ls st ls', closed_under m ls P -> inv m P E V ls st -> Q V ls st -> first_pass_loop fuel m ls st = Ok ls' ->
  exists V', inv m P E V' ls' [] /\ Q V' ls' [].
Proof.
  intros m P E Q MP Q1 Q2. induction fuel as [|f IH]; intros V ls [|p st] ls' CL I HQ H; cbn [first_pass_loop] in H;
    try (injection H as <-; exists V; split; assumption); [discriminate H|].
  bok H as q ST. destruct q as [ls1 st1].
  destruct (inv_step _ _ _ _ _ _ _ _ MP CL I ltac:(discriminate) ST) as [(k & s & rest & EQ & D) CL1].
  pose proof (v_sorted _ _ _ _ _ _ I) as SK. rewrite EQ in *.
  destruct D as [(-> & -> & I1)|(l & L & NV & -> & O1 & I1)].
  - eapply IH; [exact CL1|exact I1|eapply Q1; eassumption|exact H].
  - eapply IH; [exact CL1|exact I1| |exact H]. eapply Q2; try eassumption. apply (v_sorted _ _ _ _ _ _ I1).
Qed.

Lemma entries_spec : forall ls i st, sorted_keys st ->
  sorted_keys (entry_states i ls st) /\ (forall j t, pending st j t -> pending (entry_states i ls st) j t) /\
  (forall k l d, znth ls k = Some l -> ln_stmt l = SDir d -> d_name d = D_entry ->
     pending (entry_states i ls st) (i + k + 1) (estate_of_flags (d_flags d))) /\
  (forall P : Z -> estate -> Prop, merges P -> (forall j t, om_find j st = Some t -> P j t) ->
     (forall k l d, znth ls k = Some l -> ln_stmt l = SDir d -> d_name d = D_entry -> P (i + k + 1) (estate_of_flags (d_flags d))) ->
     forall j t, om_find j (entry_states i ls st) = Some t -> P j t).
Proof.
  induction ls as [|l ls IH]; intros i st S; cbn [entry_states].
  { split; [exact S|]. split; [auto|]. split; [intros k l d L; apply znth_in in L; destruct L|auto]. }
  match goal with |- context [entry_states (i + 1) ls ?t] => set (st1 := t) end.
  assert (S1 : sorted_keys st1) by (unfold st1; destruct (ln_stmt l) as [|d]; [exact S|]; destruct (d_name d); try exact S; apply add_state_sorted; exact S).
  destruct (IH (i + 1) st1 S1) as (A & B & C & D). split; [exact A|]. split; [|split].
  - intros j t H. apply B. unfold st1. destruct (ln_stmt l) as [|d]; [exact H|]. destruct (d_name d); try exact H. apply add_pending; assumption.
  - intros k l0 d L ST DN. pose proof (znth_some _ _ _ _ L) as R. destruct (Z.eq_dec k 0) as [->|N].
    + rewrite znth_cons0 in L. injection L as <-. apply B. unfold st1. rewrite ST, DN. replace (i + 0 + 1) with (i + 1) by lia. apply add_new. exact S.
    + rewrite znth_cons in L by lia. specialize (C _ _ _ L ST DN). replace (i + k + 1) with (i + 1 + (k - 1) + 1) by lia. exact C.
  - intros P M H1 H2. apply D; [exact M| |].
    + unfold st1. destruct (ln_stmt l) as [|d] eqn:ST; [exact H1|]. destruct (d_name d) eqn:DN; try exact H1. apply add_all; try assumption.
      specialize (H2 0 l d (znth_cons0 _ _ _) ST DN). replace (i + 0 + 1) with (i + 1) in H2 by lia. exact H2.
    + intros k l0 d L ST DN. pose proof (znth_some _ _ _ _ L) as R. specialize (H2 (k + 1) l0 d).
      replace (i + (k + 1) + 1) with (i + 1 + k + 1) in H2 by lia. apply H2; try assumption. rewrite znth_cons by lia. replace (k + 1 - 1) with k by lia. exact L.
Qed.

(** ** What single statements do to the recorded modes. *)
Local Opaque check_consistency Z.land Z.testbit.
(** Everything but these keeps the flags, up to the carry. *)
Definition same_emx (f g : flags) : Prop := fl_e f = fl_e g /\ fl_m f = fl_m g /\ fl_x f = fl_x g.
Lemma keeps_flags : forall c i s s', execute_in c i s = Ok s' -> ~ In (i_mnem i) [M_rep; M_sep; M_plp; M_xce] ->
  (forall g, i_ret i <> RC_yields g) -> same_emx (es_flags s') (es_flags s).
Proof.
  intros c i s s' H N Y. unfold execute_in in H. bok H as u U. clear U u. cbv zeta in H.
  destruct (i_mnem i) eqn:MN; try (exfalso; apply N; cbn; tauto); clear N;
    try (injection H as <-; split; [|split]; reflexivity).
  all: try (split; [|split]; (destruct (i_mode i); try (injection H as <-; reflexivity); bok H as r R; injection H as <-; reflexivity)).
  all: try (split; [|split]; (unfold pull_a, pull_x, pull_y in H; bok H as p E; destruct p; injection H as <-; reflexivity)).
  all: try (bok H as ia IA; bok H as s2 S2; bok H as db DB; injection H as <-;
    match type of S2 with context [with_y RV_unknown (with_x RV_unknown ?t)] =>
      assert (F : es_flags t = es_flags s) by (destruct (fl_m (es_flags s)); reflexivity); generalize dependent t end; intros s1 S2 F;
    (destruct ia; [bok S2 as o O; bok S2 as rx RX; bok S2 as ry RY|]); injection S2 as <-; unfold same_emx; cbn; rewrite F; auto).
  all: try (bok H as r R; split; [|split]; (injection H as <-; reflexivity)).
  all: injection H as <-; destruct (i_ret i) as [|g|] eqn:RC; cbn [yield_flags]; try (split; [|split]; reflexivity); destruct (Y g eq_refl).
Qed.
Lemma keeps_e : forall c i s s', execute_in c i s = Ok s' -> plain_stmt (SInstr i) -> (i_mnem i = M_xce -> fl_c (es_flags s) <> B_original) ->
  fl_e (es_flags s) <> B_original -> fl_e (es_flags s') <> B_original.
Proof.
  intros c i s s' H P X E.
  assert (KEEP : ~ In (i_mnem i) [M_rep; M_sep; M_plp; M_xce] -> (forall g, i_ret i <> RC_yields g) -> fl_e (es_flags s') <> B_original).
  { intros N Y. destruct (keeps_flags _ _ _ _ H N Y) as [-> _]. exact E. }
  unfold execute_in in H. bok H as u U. clear U u. cbv zeta in H.
  cbn [plain_stmt] in P.
  destruct (i_ret i) as [|g|] eqn:RC.
  2: { destruct (i_mnem i) eqn:MN; try (injection H as <-; exact E).
       all: try (injection H as <-; apply P).
       all: try (bok H as arg A; destruct arg as [v|]; injection H as <-; repeat match goal with |- context [if ?b then _ else _] => destruct b end; exact E).
       all: try (destruct (i_mode i); try (injection H as <-; exact E); bok H as r R; injection H as <-; exact E).
       all: try (unfold pull_a, pull_x, pull_y in H; bok H as p E1; destruct p; injection H as <-; exact E).
       all: try (bok H as r R; injection H as <-; exact E).
       all: try (bok H as ia IA; bok H as s2 S2; bok H as db DB; injection H as <-;
         match type of S2 with context [with_y RV_unknown (with_x RV_unknown ?t)] =>
           assert (F : es_flags t = es_flags s) by (destruct (fl_m (es_flags s)); reflexivity); generalize dependent t end; intros s1 S2 F;
         (destruct ia; [bok S2 as o O; bok S2 as rx RX; bok S2 as ry RY|]); injection S2 as <-; cbn; rewrite F; exact E).
       - injection H as <-. unfold pull_flags. destruct (pull_byte (es_stack s)) as [v k]. destruct v; exact E.
       - injection H as <-. cbn. apply X. reflexivity. }
  all: destruct (i_mnem i) eqn:MN; try (apply KEEP; [intros W; cbn in W; repeat destruct W as [W|W]; discriminate W || contradiction|discriminate]).
  all: try (bok H as arg A; destruct arg as [v|]; injection H as <-; repeat match goal with |- context [if ?b then _ else _] => destruct b end; exact E).
  all: injection H as <-.
  all: try (cbn; apply X; reflexivity).
  all: unfold pull_flags; destruct (pull_byte (es_stack s)) as [v k]; destruct v; exact E.
Qed.
