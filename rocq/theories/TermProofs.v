(** The first pass terminates. *)
From Verif Require Import Base ModelAddress ModelMnemonic ModelExpr ModelState ModelInstr ModelStatement ModelMap ModelModule
  BaseProofs MapProofs StateProofs ParseProofs.
From Coq Require Import Lia.
Open Scope list_scope.
Open Scope Z_scope.

(** ** Merging can change a state only finitely often. *)
Definition rank_bit (b : bitstate) : nat := match b with B_unknown => 0 | _ => 1 end.
Definition rank_width (e w : bitstate) : nat :=
  match e, w with
  | B_on, B_on => 0 | B_on, _ => 1
  | _, B_unknown => 0
  | B_off, _ => 1
  | B_original, (B_on | B_original) => 1
  | B_unknown, B_on => 1
  | _, _ => 2
  end.
Definition rank_flags (f : flags) : nat :=
  10 * rank_bit (fl_e f) + rank_width (fl_e f) (fl_m f) + rank_width (fl_e f) (fl_x f) + rank_bit (fl_c f).
Definition rank_reg (r : regval) : nat := match r with RV_unknown => 0 | _ => 1 end.
Definition rank_slot (v : stackval) : nat :=
  match v with SV_unknown => 0 | SV_flags f => 1 + rank_flags f | SV_var _ true => 2 | _ => 1 end.
Definition rank_slots (l : list stackval) : nat := fold_right (fun v n => (rank_slot v + n)%nat) 0%nat l.
Definition rank_stack (k : stack) : nat := match k with Abandoned => 0 | Live l => 1 + rank_slots l end.
Definition rank (s : estate) : nat :=
  rank_reg (es_a s) + rank_reg (es_xr s) + rank_reg (es_yr s) + rank_reg (es_dbr s) +
  rank_flags (es_flags s) + rank_stack (es_stack s).

Lemma width_rise : forall e1 e2 w1 w2, bit_merge e1 e2 = e1 ->
  constrained (bit_merge w1 w2) e1 = w1 \/ (rank_width e1 (constrained (bit_merge w1 w2) e1) < rank_width e1 w1)%nat.
Proof. intros [] [] [] []; cbn; intros H; try discriminate H; auto. Qed.
Lemma bit_rise : forall a b, bit_merge a b = a \/ (rank_bit (bit_merge a b) < rank_bit a)%nat.
Proof. intros [] []; cbn; auto. Qed.
Lemma rank_width_le : forall e w, (rank_width e w <= 2)%nat.
Proof. intros [] []; cbn; lia. Qed.
Lemma flags_rise : forall f g, flags_merge f g = f \/ (rank_flags (flags_merge f g) < rank_flags f)%nat.
Proof.
  intros [e m x c] [e' m' x' c']. unfold flags_merge, mk_flags, rank_flags. cbn [fl_e fl_m fl_x fl_c].
  destruct (bit_rise e e') as [E|E].
  - rewrite E. destruct (width_rise e e' m m' E) as [M|M]; destruct (width_rise e e' x x' E) as [X|X];
      destruct (bit_rise c c') as [C|C]; rewrite ?M, ?X, ?C; try (left; reflexivity); right; lia.
  - right. pose proof (rank_width_le (bit_merge e e') (constrained (bit_merge m m') (bit_merge e e'))).
    pose proof (rank_width_le (bit_merge e e') (constrained (bit_merge x x') (bit_merge e e'))).
    pose proof (bit_rise c c') as C. assert (rank_bit (bit_merge c c') <= rank_bit c)%nat by (destruct C as [->|]; lia).
    lia.
Qed.
Lemma reg_rise : forall a b, rv_merge a b = a \/ (rank_reg (rv_merge a b) < rank_reg a)%nat.
Proof. intros a b. unfold rv_merge. destruct (rv_eqb a b); [auto|]. destruct a; cbn; auto. Qed.
Lemma slot_rise : forall a b, sv_merge a b = a \/ (rank_slot (sv_merge a b) < rank_slot a)%nat.
Proof.
  intros a b. unfold sv_merge. destruct (sv_same_type a b) eqn:T; cbn [negb].
  - destruct a, b; try (left; reflexivity); try discriminate T.
    + destruct (v =? v0); [left; reflexivity|right; cbn; lia].
    + destruct (flags_rise f f0) as [->|L]; [left; reflexivity|right; cbn [rank_slot]; lia].
    + destruct (Bool.eqb orig orig0) eqn:E; [left; reflexivity|]. destruct orig; [right; cbn; lia|left; reflexivity].
  - destruct a as [| | | | |? []|]; cbn [rank_slot]; [left; reflexivity|right; lia..].
Qed.

Lemma slots_rise : forall l k r, merge_lists l k = Some r -> r = l \/ (rank_slots r < rank_slots l)%nat.
Proof.
  induction l as [|a l IH]; intros [|b k] r H; cbn [merge_lists] in H; try discriminate H; [injection H as <-; auto|].
  destruct (can_merge a b); [|discriminate H]. destruct (merge_lists l k) as [r'|] eqn:M; [|discriminate H]. injection H as <-.
  cbn [rank_slots fold_right]. fold (rank_slots r') (rank_slots l).
  destruct (slot_rise a b) as [->|A]; destruct (IH _ _ M) as [->|B]; [left; reflexivity|right; lia..].
Qed.
Lemma stack_rise : forall a b, stack_merge a b = a \/ (rank_stack (stack_merge a b) < rank_stack a)%nat.
Proof.
  intros [|l] [|k]; cbn [stack_merge rank_stack]; [auto..|right; lia|].
  destruct (merge_lists l k) as [r|] eqn:M; [|right; cbn; lia].
  destruct (slots_rise _ _ _ M) as [->|L]; [auto|right; cbn [rank_stack]; lia].
Qed.
Definition rises (s s' : estate) : Prop := s' = s \/ (rank s' < rank s)%nat.
Lemma rises_refl : forall s, rises s s.
Proof. left. reflexivity. Qed.
Lemma rises_trans : forall a b c, rises a b -> rises b c -> rises a c.
Proof. intros a b c [->|A] [->|B]; unfold rises; auto. right. lia. Qed.
Lemma merge_rises : forall a b, rises a (es_merge a b).
Proof.
  intros [a1 a2 a3 a4 f k] [b1 b2 b3 b4 g j]. unfold rises, es_merge, rank.
  cbn [es_a es_xr es_yr es_dbr es_flags es_stack].
  destruct (reg_rise a1 b1) as [->|A1]; destruct (reg_rise a2 b2) as [->|A2]; destruct (reg_rise a3 b3) as [->|A3];
    destruct (reg_rise a4 b4) as [->|A4]; destruct (flags_rise f g) as [->|F]; destruct (stack_rise k j) as [->|K];
    try (left; reflexivity); right; lia.
Qed.

(** ** Steps of the first pass. *)
Lemma add_state_find : forall k s st j, sorted_keys st -> forall t, om_find j st = Some t ->
  exists t', om_find j (add_state k s st) = Some t' /\ rises t t'.
Proof.
  intros k s st j S t F. unfold add_state. rewrite om_find_merge by exact S. destruct (Z.eqb_spec k j) as [->|N].
  - rewrite F. eexists. split; [reflexivity|apply merge_rises].
  - exists t. split; [exact F|apply rises_refl].
Qed.
Lemma add_state_sorted : forall k s st, sorted_keys st -> sorted_keys (add_state k s st).
Proof. intros. apply om_merge_sorted. assumption. Qed.

(** The keys above [j] keep their lines, and their states only rise. *)
Definition later (j : Z) (ls : list line) (st : omap estate) (ls' : list line) (st' : omap estate) : Prop :=
  sorted_keys st' /\ (forall k, j < k -> znth ls' k = znth ls k) /\
  (forall k s, j < k -> om_find k st = Some s -> exists s', om_find k st' = Some s' /\ rises s s').
Lemma later_refl : forall j ls st, sorted_keys st -> later j ls st ls st.
Proof. intros j ls st S. split; [exact S|]. split; [auto|]. intros k s _ F. exists s. split; [exact F|apply rises_refl]. Qed.
Lemma later_trans : forall j ls st ls1 st1 ls2 st2, later j ls st ls1 st1 -> later j ls1 st1 ls2 st2 -> later j ls st ls2 st2.
Proof.
  intros j ls st ls1 st1 ls2 st2 (S1 & L1 & F1) (S2 & L2 & F2). split; [exact S2|]. split.
  - intros k K. rewrite L2, L1 by exact K. reflexivity.
  - intros k s K F. destruct (F1 k s K F) as (s1 & G & R). destruct (F2 k s1 K G) as (s2 & G2 & R2).
    exists s2. split; [exact G2|eapply rises_trans; eassumption].
Qed.
Lemma later_weaken : forall j i ls st ls' st', i <= j -> later i ls st ls' st' -> later j ls st ls' st'.
Proof.
  intros j i ls st ls' st' I (S & L & F). split; [exact S|]. split; [intros k K; apply L; lia|].
  intros k s K. apply F. lia.
Qed.

(** A step pops the first node, if its line is in that state, or else puts the line in that
    state and keeps the node. *)
Lemma step_cases : forall m ls k s rest ls' st', sorted_keys ((k, s) :: rest) ->
  first_pass_step m ls ((k, s) :: rest) = Ok (ls', st') ->
  (st' = rest /\ ls' = ls) \/
  (exists l, znth ls k = Some l /\ ls' = zset k (ln_visit s l) ls /\ sorted_keys st' /\
     (forall j t, om_find j ((k, s) :: rest) = Some t -> exists t', om_find j st' = Some t' /\ rises t t')).
Proof.
  intros m ls k s rest ls' st' S H. unfold first_pass_step in H. cbv zeta in H.
  destruct (k =? zlen ls); [discriminate H|]. destruct (znth ls k) as [l|] eqn:L; [|discriminate H].
  destruct (ln_reached l && es_eqb (ln_in l) s); [injection H as <- <-; left; auto|]. right. exists l.
  split; [reflexivity|]. bok H as next E. clear E.
  assert (C : ls' = zset k (ln_visit s l) ls /\
    let st1 := if stmt_is_exit (ln_stmt l) then (k, s) :: rest else add_state (k + 1) next ((k, s) :: rest) in
    st' = st1 \/ exists idx n2, st' = add_state idx n2 st1).
  { destruct (ln_stmt l) as [i|d]; [|injection H as <- <-; auto].
    destruct (is_local_branch i); [|injection H as <- <-; auto].
    destruct (simple_identifier_opt (i_arg1 i)) as [t|]; [|discriminate H].
    destruct (local_index m t (ln_scopes l)) as [idx|e|u|]; [|discriminate H..]. bok H as n2 E2. injection H as <- <-.
    split; [reflexivity|]. right. eauto. }
  clear H. destruct C as [-> C]. cbv zeta in C. split; [reflexivity|].
  set (st1 := if stmt_is_exit (ln_stmt l) then (k, s) :: rest else add_state (k + 1) next ((k, s) :: rest)) in C.
  set (st := (k, s) :: rest) in *.
  assert (S1 : sorted_keys st1 /\ forall j t, om_find j st = Some t -> exists t', om_find j st1 = Some t' /\ rises t t').
  { unfold st1. destruct (stmt_is_exit (ln_stmt l)).
    - split; [exact S|]. intros j t F. exists t. split; [exact F|apply rises_refl].
    - split; [apply add_state_sorted; exact S|]. intros j t F. apply add_state_find; assumption. }
  clearbody st1. destruct S1 as [S1 F1]. destruct C as [->|(idx & n2 & ->)]; [auto|].
  split; [apply add_state_sorted; exact S1|]. intros j u F.
  destruct (F1 j u F) as (u1 & G & R). destruct (add_state_find idx n2 st1 j S1 u1 G) as (u2 & G2 & R2).
  exists u2. split; [exact G2|eapply rises_trans; eassumption].
Qed.

(** ** No part of a step runs out of fuel. *)
Lemma nf_bind : forall A B (x : res A) (f : A -> res B), x <> OutOfFuel -> (forall a, f a <> OutOfFuel) -> bind x f <> OutOfFuel.
Proof. intros A B [a|e|u|] f H K; cbn; [apply K|discriminate..|congruence]. Qed.
Lemma nf_eval : forall e, eval_opt null_ctx e <> OutOfFuel.
Proof. intros e H. pose proof (eval_opt_outcome e) as K. rewrite H in K. exact K. Qed.
Lemma nf_maybe : forall e, maybe_arg null_ctx e <> OutOfFuel.
Proof. intros e. unfold maybe_arg. pose proof (nf_eval e). destruct (eval_opt null_ctx e); congruence. Qed.
Lemma nf_int : forall v, int_result v <> OutOfFuel.
Proof. intros v. unfold int_result. destruct (in_int v); discriminate. Qed.
Lemma nf_add : forall o m r, rv_add o m r <> OutOfFuel.
Proof. intros o m [| |v]; cbn; try discriminate. apply nf_bind; [apply nf_int|discriminate]. Qed.
Lemma nf_pull : forall t b k, pull_reg t b k <> OutOfFuel.
Proof.
  intros t b [|l]; unfold pull_reg; [discriminate|]. destruct b; try discriminate.
  - destruct (pull_byte (Live l)) as [x k1]. destruct (pull_byte k1) as [y k2].
    destruct (sv_same_type x (SV_lo t) && sv_same_type y (SV_hi t)); [discriminate|]. destruct x; try discriminate. destruct y; discriminate.
  - destruct (pull_byte (Live l)) as [x k1]. destruct (sv_same_type x (SV_lo t)); [discriminate|]. destruct x; discriminate.
  - apply nf_bind; [destruct l as [|x l]; cbn; [discriminate|destruct (is_varsize x); discriminate]|].
    intros [x k1]. destruct (sv_same_type x (SV_var t false)); [|discriminate]. apply nf_bind; [destruct x; discriminate|].
    intros v. destruct (v =? 1); discriminate.
Qed.
Lemma nf_check : forall i f, check_consistency i f <> OutOfFuel.
Proof.
  intros i f. unfold check_consistency. repeat match goal with
    |- context [if ?b then _ else _] => destruct b; try discriminate
  | |- context [match ?b with _ => _ end] => destruct b; try discriminate end.
Qed.
Lemma nf_execute : forall i s, execute i s <> OutOfFuel.
Proof.
  intros i s. unfold execute, execute_in. apply nf_bind; [apply nf_check|]. intros _. cbv zeta.
  destruct (i_mnem i); try discriminate;
    repeat match goal with
    | |- bind _ _ <> _ => apply nf_bind; [|intros]
    | |- maybe_arg _ _ <> _ => apply nf_maybe
    | |- rv_add _ _ _ <> _ => apply nf_add
    | |- int_result _ <> _ => apply nf_int
    | |- pull_reg _ _ _ <> _ => apply nf_pull
    | |- pull_a _ <> _ => unfold pull_a
    | |- pull_x _ <> _ => unfold pull_x
    | |- pull_y _ <> _ => unfold pull_y
    | |- Ok _ <> _ => discriminate
    | |- match ?x with _ => _ end <> _ => destruct x
    end.
Qed.

Lemma nf_local : forall m n sc, local_index m n sc <> OutOfFuel.
Proof. intros m n sc. unfold local_index. destruct (search_scopes _ _); discriminate. Qed.
Lemma nf_step : forall m ls st, first_pass_step m ls st <> OutOfFuel.
Proof.
  intros m ls [|[k s] rest]; unfold first_pass_step; [discriminate|]. destruct (k =? zlen ls); [discriminate|].
  destruct (znth ls k) as [l|]; [|discriminate]. destruct (ln_reached l && es_eqb (ln_in l) s); [discriminate|].
  cbv zeta. apply nf_bind.
  - destruct (ln_stmt l) as [i|d]; cbn [stmt_execute]; [apply nf_execute|]. unfold directive_execute. destruct (d_name d); discriminate.
  - intros next. destruct (ln_stmt l) as [i|d]; [|discriminate]. destruct (is_local_branch i); [|discriminate].
    destruct (simple_identifier_opt (i_arg1 i)); [|discriminate]. destruct (local_index m s0 (ln_scopes l)); [|discriminate..].
    apply nf_bind; [|discriminate]. unfold execute_branch. apply nf_bind; [apply nf_execute|discriminate].
Qed.

(** ** Steps until [Q] holds, or the loop ends. *)
Inductive runs (m : module) (Q : list line -> omap estate -> Prop) : list line -> omap estate -> Prop :=
| runs_now : forall ls st, Q ls st -> runs m Q ls st
| runs_end : forall ls st, (forall p, first_pass_step m ls st <> Ok p) -> runs m Q ls st
| runs_step : forall ls st ls' st', st <> [] -> first_pass_step m ls st = Ok (ls', st') -> runs m Q ls' st' -> runs m Q ls st.
Lemma runs_bind : forall m (Q R : list line -> omap estate -> Prop) ls st, runs m Q ls st ->
  (forall ls' st', Q ls' st' -> runs m R ls' st') -> runs m R ls st.
Proof.
  intros m Q R ls st H K. induction H as [ls st H|ls st H|ls st ls' st' N E H IH]; [auto|apply runs_end; exact H|].
  eapply runs_step; eassumption.
Qed.
Lemma runs_ends : forall m ls st, runs m (fun _ st' => st' = []) ls st ->
  exists N, forall fuel, (N <= fuel)%nat -> first_pass_loop fuel m ls st <> OutOfFuel.
Proof.
  intros m ls st H. induction H as [ls st ->|ls st H|ls st ls' st' NE E H [N IH]].
  - exists 0%nat. intros [|f] _; discriminate.
  - exists 1%nat. intros [|f] L; [lia|]. cbn [first_pass_loop]. destruct st as [|p st]; [discriminate|].
    pose proof (nf_step m ls (p :: st)) as NF.
    destruct (first_pass_step m ls (p :: st)) as [q'|e|u|] eqn:E; [destruct (H q' eq_refl)|discriminate..|congruence].
  - exists (S N). intros [|f] L; [lia|]. destruct st as [|p st]; [congruence|]. cbn [first_pass_loop]. rewrite E. cbn [bind].
    apply IH. lia.
Qed.

(** All keys lie above [j]. *)
Definition above (j : Z) (st : omap estate) : Prop := forall k s, In (k, s) st -> j < k.

Lemma runs_above : forall m n ls st, sorted_keys st ->
  runs m (fun ls' st' => above (Z.of_nat n - 1) st' /\ later (Z.of_nat n - 1) ls st ls' st') ls st.
Proof.
  intros m n. induction n as [|n IH]; intros ls st S.
  - destruct st as [|[k s] rest].
    + apply runs_now. split; [intros k s []|apply later_refl; exact S].
    + destruct (Z_lt_le_dec k 0) as [K|K].
      * apply runs_end. intros p. unfold first_pass_step. pose proof (zlen_nonneg _ ls).
        destruct (Z.eqb_spec k (zlen ls)); [discriminate|].
        destruct (znth ls k) as [l|] eqn:L; [apply znth_some in L; lia|discriminate].
      * apply runs_now. split; [|apply later_refl; exact S]. intros j t [E|I]; [injection E as <- <-; lia|].
        destruct S as [S _]. apply S in I. lia.
  - set (j := Z.of_nat n) in *.
    assert (J : Z.of_nat (Datatypes.S n) - 1 = j) by lia. rewrite J.
    (* from a configuration whose first node is [j], by induction on the rank of its state *)
    assert (MAIN : forall r ls st s rest, sorted_keys st -> st = (j, s) :: rest -> (rank s < r)%nat ->
              runs m (fun ls' st' => above j st' /\ later j ls st ls' st') ls st).
    { clear ls st S. induction r as [|r IHr]; intros ls st s rest S E R; [lia|]. subst st.
      destruct (first_pass_step m ls ((j, s) :: rest)) as [[ls1 st1]|e|u|] eqn:ST; try (apply runs_end; congruence).
      eapply runs_step; [discriminate|exact ST|].
      destruct (step_cases _ _ _ _ _ _ _ S ST) as [[-> ->]|(l & L & -> & S1 & F1)].
      - apply runs_now. split; [intros k t I; apply S in I; exact I|]. split; [apply S|]. split; [auto|].
        intros k t K F. cbn [om_find] in F. destruct (Z.eqb_spec j k); [lia|]. exists t. split; [exact F|apply rises_refl].
      - assert (L1 : later j ls ((j, s) :: rest) (zset j (ln_visit s l) ls) st1).
        { split; [exact S1|]. split; [intros k K; apply znth_zset_other; lia|]. intros k t _. apply F1. }
        destruct (F1 j s) as (s1 & G1 & R1); [cbn; rewrite Z.eqb_refl; reflexivity|].
        eapply runs_bind; [apply (IH (zset j (ln_visit s l) ls) st1 S1)|]. cbv beta.
        intros ls2 st2 [AB (S2 & LL & F2)]. destruct (F2 j s1 ltac:(lia) G1) as (s2 & G2 & R2).
        destruct st2 as [|[k0 t0] rest2]; [discriminate G2|].
        assert (k0 = j /\ t0 = s2) as [-> ->].
        { assert (j - 1 < k0) by (eapply AB; left; reflexivity). cbn [om_find] in G2.
          destruct (Z.eqb_spec k0 j) as [->|NE]; [injection G2 as ->; auto|].
          apply om_find_in in G2. destruct S2 as [S2 _]. apply S2 in G2. lia. }
        assert (L2 : later j ls ((j, s) :: rest) ls2 ((j, s2) :: rest2)).
        { eapply later_trans; [exact L1|]. apply (later_weaken j (j - 1)); [lia|]. split; [exact S2|]. split; [exact LL|exact F2]. }
        destruct (rises_trans _ _ _ R1 R2) as [->|LT].
        + (* the line is in this state: the node is popped *)
          eapply runs_step; [discriminate| |].
          * unfold first_pass_step.
            assert (K : znth ls2 j = Some (ln_visit s l)).
            { rewrite LL by lia. apply znth_zset_same. eapply znth_some. exact L. }
            pose proof (znth_some _ _ _ _ K). destruct (Z.eqb_spec j (zlen ls2)); [lia|]. rewrite K.
            cbn [ln_visit ln_reached ln_in]. rewrite (proj2 (es_eqb_eq s s) eq_refl). reflexivity.
          * apply runs_now. split; [intros k t I; apply S2 in I; exact I|]. eapply later_trans; [exact L2|].
            split; [apply S2|]. split; [auto|]. intros k t K F. cbn [om_find] in F. destruct (Z.eqb_spec j k); [lia|].
            exists t. split; [exact F|apply rises_refl].
        + eapply runs_bind; [apply (IHr ls2 ((j, s2) :: rest2) s2 rest2 S2 eq_refl); lia|]. cbv beta.
          intros ls3 st3 [AB3 L3]. apply runs_now. split; [exact AB3|]. eapply later_trans; eassumption. }
    eapply runs_bind; [apply (IH ls st S)|]. cbv beta. intros ls1 st1 [AB L1].
    assert (L1' : later j ls st ls1 st1) by (apply (later_weaken j (j - 1)); [lia|exact L1]).
    destruct st1 as [|[k s] rest]; [apply runs_now; split; [intros ? ? []|exact L1']|].
    assert (j - 1 < k) by (eapply AB; left; reflexivity).
    assert (S1 : sorted_keys ((k, s) :: rest)) by apply L1.
    destruct (Z.eq_dec k j) as [->|NE].
    + eapply runs_bind; [apply (MAIN (Datatypes.S (rank s)) ls1 _ s rest S1 eq_refl); lia|]. cbv beta.
      intros ls2 st2 [AB2 L2]. apply runs_now. split; [exact AB2|]. eapply later_trans; eassumption.
    + apply runs_now. split; [|exact L1']. intros k' t [E|I]; [injection E as <- <-; lia|].
      destruct S1 as [S1 _]. apply S1 in I. lia.
Qed.

Lemma step_zlen : forall m ls st ls' st', first_pass_step m ls st = Ok (ls', st') -> sorted_keys st -> zlen ls' = zlen ls.
Proof.
  intros m ls [|[k s] rest] ls' st' H S; [injection H as <- <-; reflexivity|].
  destruct (step_cases _ _ _ _ _ _ _ S H) as [[-> ->]|(l & L & -> & _)]; [reflexivity|apply zlen_zset].
Qed.

Lemma loop_terminates : forall m ls st, sorted_keys st ->
  exists N, forall fuel, (N <= fuel)%nat -> first_pass_loop fuel m ls st <> OutOfFuel.
Proof.
  intros m ls st S. apply runs_ends. eapply runs_bind; [apply (runs_above m (Datatypes.S (List.length ls)) ls st S)|]. cbv beta.
  intros ls' st' [AB (S' & LL & _)]. destruct st' as [|[k s] rest]; [apply runs_now; reflexivity|].
  assert (K : zlen ls < k) by (unfold zlen; specialize (AB k s (or_introl eq_refl)); lia).
  apply runs_end. intros p. unfold first_pass_step. destruct (k =? zlen ls'); [discriminate|].
  rewrite LL by (unfold zlen in K; lia). rewrite (proj2 (znth_none _ ls k)) by lia. discriminate.
Qed.

Lemma entry_sorted : forall ls i st, sorted_keys st -> sorted_keys (entry_states i ls st).
Proof.
  induction ls as [|l ls IH]; intros i st S; cbn [entry_states]; [exact S|]. apply IH.
  destruct (ln_stmt l) as [j|d]; [exact S|]. destruct (d_name d); try exact S. apply add_state_sorted. exact S.
Qed.
Lemma nf_fix : forall ls, fix_modes ls <> OutOfFuel.
Proof.
  induction ls as [|l ls IH]; cbn [fix_modes]; [discriminate|]. apply nf_bind.
  - destruct (ln_stmt l) as [i|d]; [|discriminate]. destruct (negb (ln_reached l)); [discriminate|]. apply nf_bind; [|discriminate].
    unfold fix_addressing_mode. destruct (i_mode i); try discriminate; [destruct (fl_m _)|destruct (fl_x _)]; discriminate.
  - intros l'. apply nf_bind; [exact IH|discriminate].
Qed.
Lemma nf_layout : forall ls pc, layout pc ls <> OutOfFuel.
Proof.
  induction ls as [|l ls IH]; intros pc; cbn [layout]; [discriminate|]. apply nf_bind.
  - destruct (ln_stmt l) as [i|d]; [discriminate|]. destruct (d_name d); try discriminate. apply nf_bind; [apply nf_eval|].
    intros v. apply nf_bind; [|discriminate]. unfold mk_address. destruct (_ <=? _); discriminate.
  - intros [a|]; [apply nf_bind; [apply IH|discriminate]|]. destruct (0 <? _); [discriminate|]. apply nf_bind; [apply IH|discriminate].
Qed.
Lemma first_pass_terminates : forall m, exists N, forall fuel, (N <= fuel)%nat -> run_first_pass fuel m <> OutOfFuel.
Proof.
  intros m. destruct (loop_terminates m (md_lines m) (entry_states 0 (md_lines m) []) (entry_sorted (md_lines m) 0 [] (I : sorted_keys (A:=estate) []))) as [N H].
  exists N. intros fuel L. unfold run_first_pass. apply nf_bind; [apply H; exact L|]. intros ls.
  apply nf_bind; [apply nf_fix|]. intros ls2. apply nf_bind; [apply nf_layout|discriminate].
Qed.

(** More fuel does not change a result. *)
Lemma loop_more : forall fuel fuel' m ls st, (fuel <= fuel')%nat -> first_pass_loop fuel m ls st <> OutOfFuel ->
  first_pass_loop fuel' m ls st = first_pass_loop fuel m ls st.
Proof.
  induction fuel as [|f IH]; intros fuel' m ls st L H.
  - destruct st; [destruct fuel'; reflexivity|]. cbn in H. congruence.
  - destruct fuel' as [|f']; [lia|]. destruct st as [|p st]; [reflexivity|]. cbn [first_pass_loop] in *.
    destruct (first_pass_step m ls (p :: st)) as [[ls1 st1]|e|u|]; try reflexivity. cbn [bind] in *. apply IH; [lia|exact H].
Qed.
Lemma first_pass_more : forall fuel fuel' m, (fuel <= fuel')%nat -> run_first_pass fuel m <> OutOfFuel ->
  run_first_pass fuel' m = run_first_pass fuel m.
Proof.
  intros fuel fuel' m L H. unfold run_first_pass in *.
  rewrite (loop_more fuel fuel'); [reflexivity|exact L|]. intros E. rewrite E in H. apply H. reflexivity.
Qed.
