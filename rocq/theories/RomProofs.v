(** Proofs for cartridge mapping, reading and writing. *)
From Verif Require Import Base ModelNumeric ModelAddress ModelMap ModelRom.
From Verif Require Import BaseProofs SpecArith ArithProofs SpecRom.

(** ** Lists. *)
Lemma znth_nth_byte : forall l i, znth l i = nth_byte l i.
Proof.
  intros l i. unfold znth, nth_byte.
  destruct (Z.ltb_spec i 0).
  - replace (0 <=? i) with false by lia. reflexivity.
  - replace (0 <=? i) with true by lia. cbn [andb].
    destruct (Z.ltb_spec i (Z.of_nat (List.length l))).
    + apply nth_error_nth'. lia.
    + apply nth_error_None. lia.
Qed.
Lemma nth_byte_0 : forall x l, nth_byte (x :: l) 0 = Some x.
Proof. reflexivity. Qed.
Lemma nth_byte_S : forall x l i, 0 <= i -> nth_byte (x :: l) (i + 1) = nth_byte l i.
Proof.
  intros x l i Hi. unfold nth_byte. cbn [List.length].
  replace (0 <=? i + 1) with true by lia. replace (0 <=? i) with true by lia. cbn [andb].
  replace (i + 1 <? Z.of_nat (S (List.length l))) with (i <? Z.of_nat (List.length l)) by lia.
  replace (Z.to_nat (i + 1)) with (S (Z.to_nat i)) by lia. reflexivity.
Qed.
Lemma nth_byte_none : forall l i, nth_byte l i = None <-> i < 0 \/ Z.of_nat (List.length l) <= i.
Proof.
  intros l i. unfold nth_byte.
  destruct (Z.leb_spec 0 i); destruct (Z.ltb_spec i (Z.of_nat (List.length l))); cbn [andb];
    split; intros; try lia; try discriminate; reflexivity.
Qed.
Lemma nth_byte_some : forall l i b, nth_byte l i = Some b -> 0 <= i < Z.of_nat (List.length l).
Proof.
  intros l i b H. destruct (Z.ltb_spec i 0).
  - rewrite (proj2 (nth_byte_none l i)) in H by lia. discriminate.
  - destruct (Z.ltb_spec i (Z.of_nat (List.length l))); [lia|].
    rewrite (proj2 (nth_byte_none l i)) in H by lia. discriminate.
Qed.
Lemma nth_byte_in : forall l i, 0 <= i < Z.of_nat (List.length l) -> exists b, nth_byte l i = Some b.
Proof.
  intros l i H. destruct (nth_byte l i) as [b|] eqn:E; [eauto|].
  apply nth_byte_none in E. lia.
Qed.
Lemma nth_byte_ext : forall l1 l2 : list Z, List.length l1 = List.length l2 ->
  (forall i b, nth_byte l1 i = Some b -> nth_byte l2 i = Some b) -> l1 = l2.
Proof.
  induction l1 as [|x l1 IH]; intros [|y l2] Hl H; try discriminate; [reflexivity|].
  injection Hl as Hl. f_equal.
  - specialize (H 0 x (nth_byte_0 x l1)). rewrite nth_byte_0 in H. congruence.
  - apply IH; [exact Hl|]. intros i b Hb.
    pose proof (nth_byte_some _ _ _ Hb).
    rewrite <- (nth_byte_S y l2) by lia. apply H. rewrite nth_byte_S by lia. exact Hb.
Qed.

Lemma nth_byte_skipn : forall n l i, 0 <= i ->
  nth_byte (skipn n l) i = nth_byte l (Z.of_nat n + i).
Proof.
  induction n as [|n IH]; intros l i Hi; [f_equal; lia|].
  destruct l as [|x l].
  - cbn [skipn]. rewrite !(proj2 (nth_byte_none [] _)) by (cbn; lia). reflexivity.
  - cbn [skipn]. rewrite IH by lia.
    replace (Z.of_nat (S n) + i) with ((Z.of_nat n + i) + 1) by lia.
    rewrite nth_byte_S by lia. reflexivity.
Qed.
Lemma nth_byte_firstn : forall n l i, i < Z.of_nat n -> nth_byte (firstn n l) i = nth_byte l i.
Proof.
  induction n as [|n IH]; intros l i Hi.
  - rewrite !(proj2 (nth_byte_none _ _)) by lia. reflexivity.
  - destruct l as [|x l]; [reflexivity|]. cbn [firstn].
    destruct (Z.ltb_spec i 0); [rewrite !(proj2 (nth_byte_none _ _)) by lia; reflexivity|].
    destruct (Z.eqb_spec i 0); [subst; reflexivity|].
    replace i with ((i - 1) + 1) by lia. rewrite !nth_byte_S by lia. apply IH. lia.
Qed.

Lemma set_nth_length : forall A n (x : A) l, List.length (set_nth n x l) = List.length l.
Proof. induction n; destruct l; cbn; auto. Qed.
Lemma zset_length : forall A i (x : A) l, List.length (zset i x l) = List.length l.
Proof. intros. unfold zset. destruct (i <? 0); [reflexivity|apply set_nth_length]. Qed.
Lemma set_nth_same : forall n x l, (n < List.length l)%nat -> nth_error (set_nth n x l) n = Some (x:Z).
Proof. induction n; destruct l; cbn; intros; try lia; [reflexivity|]. apply IHn. lia. Qed.
Lemma set_nth_other : forall n k (x:Z) l, n <> k -> nth_error (set_nth n x l) k = nth_error l k.
Proof.
  induction n; destruct l; intros; try reflexivity; destruct k; try reflexivity; try lia.
  cbn. apply IHn. lia.
Qed.
Lemma zset_same : forall i x l, 0 <= i < Z.of_nat (List.length l) -> nth_byte (zset i x l) i = Some x.
Proof.
  intros. rewrite <- znth_nth_byte. unfold znth, zset. replace (i <? 0) with false by lia.
  apply set_nth_same. lia.
Qed.
Lemma zset_other : forall i k x l, i <> k -> nth_byte (zset i x l) k = nth_byte l k.
Proof.
  intros i k x l H. rewrite <- !znth_nth_byte. unfold znth, zset.
  destruct (Z.ltb_spec i 0); [reflexivity|].
  destruct (Z.ltb_spec k 0); [reflexivity|]. apply set_nth_other. lia.
Qed.

(** ** Mapping. *)
Lemma addr24_parts : forall a, addr24 a -> 0 <= bank_of a < 256 /\ 0 <= offset_of a < 65536 /\
  a = bank_of a * 65536 + offset_of a.
Proof. intros a H. unfold addr24, bank_of, offset_of in *. change (2^24) with 16777216 in *.
  change (2^16) with 65536. lia. Qed.

Lemma snes_cases : forall a m, addr24 a ->
  let b := bank_of a in let o := offset_of a in
  snes_to_rom a m =
    if (b =? 0x7e) || (b =? 0x7f) then Err E_rom_address
    else if (o <? 0x8000) && ((b <? 0x40) || ((0x80 <=? b) && (b <? 0xc0)))
    then Err E_rom_address
    else match m with
    | LoRom => if o <? 0x8000 then Err E_rom_address
               else Ok ((b mod 128) * 32768 + (o - 32768))
    | HiRom => Ok ((b mod 64) * 65536 + o)
    | ExHiRom => Ok ((b mod 64) * 65536 + o + 4194304)
    end.
Proof.
  intros a m Ha b o. destruct (addr24_parts a Ha) as [Hb [Ho _]].
  unfold snes_to_rom. rewrite addr_low_spec, addr_bank_spec.
  fold b o in Hb, Ho |- *.
  replace (0 <=? b) with true by lia. cbn [andb].
  destruct ((b =? 126) || (b =? 127)); [reflexivity|].
  destruct ((o <? 32768) && ((b <? 64) || (128 <=? b) && (b <? 192))) eqn:E; [reflexivity|].
  rewrite land_7fff, land_7f, land_3f, shiftl_15, shiftl_16.
  destruct m.
  - destruct (Z.ltb_spec o 32768); [reflexivity|]. rewrite lor_15' by lia. f_equal. lia.
  - rewrite lor_16' by lia. reflexivity.
  - rewrite lor_16' by lia. cbv zeta. set (r := b mod 64 * 65536 + o).
    assert (Hr : 0 <= r < 4194304) by (unfold r; lia).
    replace (Z.land r 8388608) with 0.
    + rewrite Z.eqb_refl. rewrite Z.lor_comm.
      change 4194304 with (1 * 2 ^ 22). rewrite lor_disjoint; [f_equal; lia | lia | ].
      change (2^22) with 4194304. lia.
    + symmetry. apply Z.bits_inj'. intros i Hi. rewrite Z.land_spec, Z.bits_0.
      change 8388608 with (2 ^ 23). rewrite Z.pow2_bits_eqb by lia.
      destruct (Z.eqb_spec 23 i); [|apply andb_false_r]. subst i.
      rewrite andb_true_r. replace r with (r mod 2 ^ 22) by (apply Z.mod_small; exact Hr).
      apply Z.mod_pow2_bits_high. lia.
Qed.

Lemma cart_bool : forall a, addr24 a ->
  (cart_address a <->
   ((bank_of a =? 126) || (bank_of a =? 127)) = false /\
   ((offset_of a <? 32768) && ((bank_of a <? 64) || ((128 <=? bank_of a) && (bank_of a <? 192))))
     = false).
Proof.
  intros a Ha. destruct (addr24_parts a Ha) as [Hb [Ho _]]. unfold cart_address.
  change (2^15) with 32768. lia.
Qed.

(** The mapping as the code implements it. *)
Lemma snes_iff : forall a m off, addr24 a ->
  (snes_to_rom a m = Ok off <->
   cart_address a /\ (m = LoRom -> 32768 <= offset_of a) /\
   off = match m with
         | LoRom => (bank_of a mod 128) * 32768 + (offset_of a - 32768)
         | HiRom => (bank_of a mod 64) * 65536 + offset_of a
         | ExHiRom => (bank_of a mod 64) * 65536 + offset_of a + 4194304
         end).
Proof.
  intros a m off Ha. rewrite (snes_cases a m Ha). cbv zeta. rewrite (cart_bool a Ha).
  destruct ((bank_of a =? 126) || (bank_of a =? 127)).
  { split; [discriminate|intros [[H _] _]; discriminate]. }
  destruct ((offset_of a <? 32768) && ((bank_of a <? 64) || (128 <=? bank_of a) && (bank_of a <? 192))).
  { split; [discriminate|intros [[_ H] _]; discriminate]. }
  destruct m.
  - destruct (Z.ltb_spec (offset_of a) 32768).
    + split; [discriminate|]. intros [_ [H1 _]]. specialize (H1 eq_refl). lia.
    + split; [intros E; injection E as <-; auto|intros [_ [_ ->]]; reflexivity].
  - split; [intros E; injection E as <-|intros [_ [_ ->]]; reflexivity].
    repeat split; discriminate.
  - split; [intros E; injection E as <-|intros [_ [_ ->]]; reflexivity].
    repeat split; discriminate.
Qed.

Lemma snes_ok_or_err : forall a m, addr24 a ->
  (exists off, snes_to_rom a m = Ok off) \/ snes_to_rom a m = Err E_rom_address.
Proof.
  intros a m Ha. rewrite (snes_cases a m Ha). cbv zeta.
  repeat match goal with |- context [if ?b then _ else _] => destruct b end;
    try (right; reflexivity); destruct m;
    repeat match goal with |- context [if ?b then _ else _] => destruct b end; eauto.
Qed.

Lemma mapping_exact : forall m a off, addr24 a -> m <> ExHiRom ->
  (snes_to_rom a m = Ok off <-> rom_offset m a off).
Proof.
  intros m a off Ha Hm. rewrite (snes_iff a m off Ha).
  split.
  - intros [Hc [Hl ->]]. destruct m; [| |congruence].
    + exact (ro_lo a Hc (Hl eq_refl)).
    + exact (ro_hi a Hc).
  - intros H. inv H; repeat split; try discriminate; auto; try congruence;
      try (apply H0); try (apply H1).
Qed.

Lemma exhirom_actual : forall a off, addr24 a ->
  (snes_to_rom a ExHiRom = Ok off <->
   exists o, snes_to_rom a HiRom = Ok o /\ off = o + 2 ^ 22).
Proof.
  intros a off Ha. rewrite (snes_iff a ExHiRom off Ha). change (2^22) with 4194304. split.
  - intros [Hc [Hl ->]]. eexists. split; [|reflexivity].
    apply (snes_iff a HiRom); [exact Ha|]. repeat split; try apply Hc; discriminate.
  - intros [o [H ->]]. apply (snes_iff a HiRom _ Ha) in H. destruct H as [Hc [_ ->]].
    repeat split; try apply Hc; discriminate.
Qed.

Lemma snes_range : forall a m off, addr24 a -> snes_to_rom a m = Ok off ->
  0 <= off < 2 ^ 23 /\ (m <> ExHiRom -> off < 2 ^ 22).
Proof.
  intros a m off Ha H. apply (snes_iff a m off Ha) in H. destruct H as [_ [Hl ->]].
  destruct (addr24_parts a Ha) as [Hb [Ho _]].
  change (2^23) with 8388608. change (2^22) with 4194304.
  destruct m; [specialize (Hl eq_refl)| |]; split; intros; try congruence; lia.
Qed.

Lemma snes_inj : forall a b m off, addr24 a -> addr24 b ->
  snes_to_rom a m = Ok off -> snes_to_rom b m = Ok off ->
  offset_of a = offset_of b /\
  match m with
  | LoRom => bank_of a mod 0x80 = bank_of b mod 0x80
  | _ => bank_of a mod 0x40 = bank_of b mod 0x40
  end.
Proof.
  intros a b m off Ha Hb H1 H2.
  apply (snes_iff a m off Ha) in H1. apply (snes_iff b m off Hb) in H2.
  destruct H1 as [_ [L1 ->]]. destruct H2 as [_ [L2 E]].
  destruct (addr24_parts a Ha) as [? [? _]]. destruct (addr24_parts b Hb) as [? [? _]].
  destruct m; [specialize (L1 eq_refl); specialize (L2 eq_refl)| |]; lia.
Qed.

(** ** Reading. *)
Lemma offset_add_wrapped : forall a d, addr24 a ->
  offset_of (add_wrapped a d) = (offset_of a + d) mod 65536 /\ bank_of (add_wrapped a d) = bank_of a.
Proof.
  intros a d Ha. rewrite add_wrapped_spec by exact Ha.
  destruct (addr24_parts a Ha) as [? [? _]].
  unfold same_bank_plus. generalize dependent (bank_of a). generalize dependent (offset_of a).
  intros o Ho b Hb. unfold offset_of, bank_of. change (2^16) with 65536. lia.
Qed.

Lemma in_rom_functional : forall r a b c, in_rom r a b -> in_rom r a c -> b = c.
Proof.
  intros r a b c [o [H1 H2]] [o' [H3 H4]]. cbv beta in *. congruence.
Qed.

Lemma read_loop_ok : forall r a n i l,
  read_loop r a i n = Ok l <->
  List.length l = n /\ forall k b, nth_byte l k = Some b -> in_rom r (add_wrapped a (i + k)) b.
Proof.
  intros r a. induction n as [|n IH]; intros i l; cbn [read_loop].
  - split.
    + intros H. injection H as <-. split; [reflexivity|]. intros k b H.
      apply nth_byte_some in H. cbn in H. lia.
    + intros [Hl _]. destruct l; [reflexivity|discriminate].
  - split.
    + intros H. bok H as off E1. rewrite znth_nth_byte in H.
      destruct (nth_byte (rom_data r) off) as [d|] eqn:E2; [|discriminate].
      bok H as rest E3. injection H as <-. apply IH in E3. destruct E3 as [Hl Hk].
      split; [cbn; congruence|]. intros k b Hb.
      pose proof (nth_byte_some _ _ _ Hb).
      destruct (Z.eqb_spec k 0).
      * subst k. rewrite nth_byte_0 in Hb. injection Hb as <-.
        exists off. rewrite Z.add_0_r. auto.
      * replace k with ((k - 1) + 1) in Hb |- * by lia. rewrite nth_byte_S in Hb by lia.
        apply Hk in Hb. replace (i + (k - 1 + 1)) with (i + 1 + (k - 1)) by lia. exact Hb.
    + intros [Hl H]. destruct l as [|x l]; [discriminate|]. injection Hl as Hl.
      destruct (H 0 x (nth_byte_0 x l)) as [off [E1 E2]]. rewrite Z.add_0_r in E1.
      rewrite E1. cbn [bind]. rewrite znth_nth_byte, E2.
      rewrite (proj2 (IH (i + 1) l)); [reflexivity|]. split; [exact Hl|].
      intros k b Hb. pose proof (nth_byte_some _ _ _ Hb).
      specialize (H (k + 1) b). rewrite nth_byte_S in H by lia.
      replace (i + 1 + k) with (i + (k + 1)) by lia. exact (H Hb).
Qed.

Lemma read_loop_total : forall r a n i, addr24 a ->
  (exists l, read_loop r a i n = Ok l) \/ (exists e, read_loop r a i n = Err e).
Proof.
  intros r a n. induction n as [|n IH]; intros i Ha; cbn [read_loop]; [eauto|].
  destruct (snes_ok_or_err (add_wrapped a i) (rom_mapping r)) as [[off E]|E].
  { apply add_wrapped_24. unfold addr24 in Ha. lia. }
  - rewrite E. cbn [bind]. destruct (znth (rom_data r) off); [|eauto].
    destruct (IH (i + 1) Ha) as [[l E']|[e E']]; rewrite E'; cbn [bind]; eauto.
  - rewrite E. cbn [bind]. eauto.
Qed.

(** When the offsets of the first and last byte increase, the read is contiguous. *)
Lemma contiguous : forall a m len first last, addr24 a -> 0 < len <= 65536 ->
  snes_to_rom a m = Ok first -> snes_to_rom (add_wrapped a (len - 1)) m = Ok last ->
  first < last ->
  last = first + (len - 1) /\
  forall k, 0 <= k < len -> snes_to_rom (add_wrapped a k) m = Ok (first + k).
Proof.
  intros a m len first last Ha Hlen H1 H2 Hlt.
  assert (H24 : forall d, addr24 (add_wrapped a d)).
  { intros d. apply add_wrapped_24. unfold addr24 in Ha. lia. }
  destruct (addr24_parts a Ha) as [Hb [Ho _]].
  apply (snes_iff a m first Ha) in H1. destruct H1 as [C1 [L1 E1]].
  apply (snes_iff _ m last (H24 _)) in H2. destruct H2 as [C2 [L2 E2]].
  destruct (offset_add_wrapped a (len - 1) Ha) as [O2 B2].
  rewrite O2, B2 in *.
  assert (Hno : offset_of a + (len - 1) < 65536).
  { destruct m; [specialize (L1 eq_refl); specialize (L2 eq_refl)| |]; lia. }
  rewrite Z.mod_small in * by lia.
  split; [destruct m; lia|].
  intros k Hk. apply (snes_iff _ m _ (H24 _)).
  destruct (offset_add_wrapped a k Ha) as [O3 B3].
  unfold cart_address in *. rewrite O3, B3. rewrite B2, O2 in C2.
  rewrite Z.mod_small in * by lia. change (2^15) with 32768 in *.
  split; [|split].
  - lia.
  - intros Em. specialize (L1 Em). lia.
  - destruct m; lia.
Qed.

Lemma rom_read_ok : forall r a len l, addr24 a -> 0 <= len <= 65536 ->
  (rom_read r a len = Ok l <->
   Z.of_nat (List.length l) = len /\
   forall k b, nth_byte l k = Some b -> in_rom r (add_wrapped a k) b).
Proof.
  intros r a len l Ha Hlen. unfold rom_read.
  destruct (Z.eqb_spec len 0).
  { subst len. split.
    - intros H. injection H as <-. split; [reflexivity|]. intros k b H.
      apply nth_byte_some in H. cbn in H. lia.
    - intros [H _]. destruct l; [reflexivity|discriminate]. }
  replace (len <? 0) with false by lia.
  assert (Hpart : forall d b, in_rom r (add_wrapped a d) b ->
            exists o, snes_to_rom (add_wrapped a d) (rom_mapping r) = Ok o /\
                      nth_byte (rom_data r) o = Some b) by (intros d b H; exact H).
  assert (Hz : add_wrapped a 0 = a).
  { rewrite add_wrapped_spec by exact Ha. unfold same_bank_plus.
    destruct (addr24_parts a Ha) as [? [? E]]. rewrite Z.add_0_r.
    change (2^16) with 65536. rewrite Z.mod_small by lia. lia. }
  split.
  - intros H. bok H as first E1. bok H as last E2.
    destruct (Z.ltb_spec first last).
    + destruct (Z.leb_spec (zlen (rom_data r)) last); [discriminate|]. injection H as <-.
      destruct (contiguous a _ len first last Ha ltac:(lia) E1 E2 H0) as [El Hk].
      destruct (snes_range _ _ _ Ha E1) as [Hf _]. unfold zlen in H1.
      assert (Hlen' : List.length (firstn (Z.to_nat (last + 1 - first))
                (skipn (Z.to_nat first) (rom_data r))) = Z.to_nat len).
      { rewrite firstn_length, skipn_length. lia. }
      split; [lia|].
      intros k b Hb. pose proof (nth_byte_some _ _ _ Hb) as Hr.
      rewrite nth_byte_firstn in Hb by lia. rewrite nth_byte_skipn in Hb by lia.
      exists (first + k). split; [apply Hk; lia|].
      rewrite Z2Nat.id in Hb by lia. exact Hb.
    + apply read_loop_ok in H. destruct H as [Hl Hk]. split; [lia|]. exact Hk.
  - intros [Hl H].
    destruct (nth_byte_in l 0 ltac:(lia)) as [b0 Hb0].
    destruct (nth_byte_in l (len - 1) ltac:(lia)) as [b1 Hb1].
    destruct (Hpart _ _ (H _ _ Hb0)) as [first [E1 F1]]. rewrite Hz in E1.
    destruct (Hpart _ _ (H _ _ Hb1)) as [last [E2 F2]].
    rewrite E1, E2. cbn [bind].
    destruct (Z.ltb_spec first last).
    + pose proof (nth_byte_some _ _ _ F2). unfold zlen.
      replace (Z.of_nat (List.length (rom_data r)) <=? last) with false by lia.
      f_equal. symmetry.
      destruct (contiguous a _ len first last Ha ltac:(lia) E1 E2 H0) as [El Hk].
      destruct (snes_range _ _ _ Ha E1) as [Hf _].
      apply nth_byte_ext.
      * rewrite firstn_length, skipn_length. lia.
      * intros k b Hb. pose proof (nth_byte_some _ _ _ Hb).
        destruct (Hpart _ _ (H _ _ Hb)) as [o [E3 F3]].
        rewrite (Hk k) in E3 by lia. injection E3 as <-.
        rewrite nth_byte_firstn by lia. rewrite nth_byte_skipn by lia.
        rewrite Z2Nat.id by lia. exact F3.
    + apply read_loop_ok. split; [lia|]. exact H.
Qed.

Lemma rom_read_total : forall r a len, addr24 a ->
  (exists l, rom_read r a len = Ok l) \/ (exists e, rom_read r a len = Err e).
Proof.
  intros r a len Ha. unfold rom_read.
  destruct (len =? 0); [eauto|]. destruct (len <? 0); [eauto|].
  destruct (snes_ok_or_err a (rom_mapping r) Ha) as [[o E]|E]; rewrite E; cbn [bind]; [|eauto].
  destruct (snes_ok_or_err (add_wrapped a (len - 1)) (rom_mapping r)) as [[o' E']|E'].
  { apply add_wrapped_24. unfold addr24 in Ha. lia. }
  - rewrite E'. cbn [bind]. destruct (o <? o').
    + destruct (zlen (rom_data r) <=? o'); eauto.
    + apply read_loop_total. exact Ha.
  - rewrite E'. cbn [bind]. eauto.
Qed.

Lemma rom_read_exact : forall r a len, addr24 a -> 0 <= len <= 2 ^ 16 ->
  (forall l, rom_read r a len = Ok l <->
     Z.of_nat (List.length l) = len /\
     forall k b, nth_byte l k = Some b -> in_rom r (same_bank_plus a k) b) /\
  ((exists l, rom_read r a len = Ok l) \/ (exists e, rom_read r a len = Err e)).
Proof.
  intros r a len Ha Hlen. split; [|apply rom_read_total; exact Ha].
  intros l. rewrite (rom_read_ok r a len l Ha Hlen).
  split; intros [H1 H2]; (split; [exact H1|]); intros k b Hb; specialize (H2 k b Hb);
    [rewrite <- add_wrapped_spec by exact Ha | rewrite add_wrapped_spec by exact Ha]; exact H2.
Qed.

(** Success exactly when every byte is there. *)
Lemma rom_read_succeeds : forall r a len, addr24 a -> 0 <= len <= 2 ^ 16 ->
  ((exists l, rom_read r a len = Ok l) <->
   forall k, 0 <= k < len -> exists b, in_rom r (same_bank_plus a k) b).
Proof.
  intros r a len Ha Hlen. split.
  - intros [l Hl] k Hk. apply (proj1 (rom_read_exact r a len Ha Hlen)) in Hl.
    destruct Hl as [E H]. destruct (nth_byte_in l k) as [b Hb]; [lia|]. eauto.
  - intros H.
    assert (Hn : forall n, (Z.of_nat n <= len) -> exists l, List.length l = n /\
        forall k b, nth_byte l k = Some b ->
          in_rom r (same_bank_plus a (len - Z.of_nat n + k)) b).
    { induction n as [|n IH]; intros Hle.
      - exists []. split; [reflexivity|]. intros k b Hb. apply nth_byte_some in Hb. cbn in Hb. lia.
      - destruct IH as [l [E Hk]]; [lia|].
        destruct (H (len - Z.of_nat (S n))) as [b Hb]; [lia|].
        exists (b :: l). split; [cbn; congruence|]. intros k c Hc.
        pose proof (nth_byte_some _ _ _ Hc).
        destruct (Z.eqb_spec k 0).
        + subst k. rewrite nth_byte_0 in Hc. injection Hc as <-. rewrite Z.add_0_r. exact Hb.
        + replace k with ((k - 1) + 1) in Hc by lia. rewrite nth_byte_S in Hc by lia.
          apply Hk in Hc.
          replace (len - Z.of_nat (S n) + k) with (len - Z.of_nat n + (k - 1)) by lia. exact Hc. }
    destruct (Hn (Z.to_nat len)) as [l [E Hk]]; [lia|].
    exists l. apply (proj1 (rom_read_exact r a len Ha Hlen)).
    split; [lia|]. intros k b Hb. apply Hk in Hb.
    replace (len - Z.of_nat (Z.to_nat len) + k) with k in Hb by lia. exact Hb.
Qed.

Lemma byte_at_ok : forall l i b, byte_at l i = Ok b <-> nth_byte l i = Some b.
Proof.
  intros l i b. unfold byte_at. rewrite znth_nth_byte.
  destruct (nth_byte l i); split; intros H; congruence.
Qed.

Lemma read_values : forall r a, addr24 a ->
  (forall v, read_byte (rom_read r) a = Ok v <-> in_rom r a v) /\
  (forall v, read_word (rom_read r) a = Ok v <->
     exists b0 b1, in_rom r a b0 /\ in_rom r (same_bank_plus a 1) b1 /\ v = b0 + 2 ^ 8 * b1) /\
  (forall v, read_long (rom_read r) a = Ok v <->
     exists b0 b1 b2, in_rom r a b0 /\ in_rom r (same_bank_plus a 1) b1 /\
       in_rom r (same_bank_plus a 2) b2 /\ v = b0 + 2 ^ 8 * b1 + 2 ^ 16 * b2).
Proof.
  intros r a Ha.
  assert (Hz : same_bank_plus a 0 = a).
  { unfold same_bank_plus. destruct (addr24_parts a Ha) as [? [? E]]. rewrite Z.add_0_r.
    change (2^16) with 65536. rewrite Z.mod_small by lia. lia. }
  change (2^8) with 256. change (2^16) with 65536.
  assert (R : forall n l, 0 <= n <= 65536 -> (rom_read r a n = Ok l <->
     Z.of_nat (List.length l) = n /\
     forall k b, nth_byte l k = Some b -> in_rom r (same_bank_plus a k) b)).
  { intros n l Hn. apply rom_read_exact; assumption. }
  split; [|split]; intros v; unfold read_byte, read_word, read_long.
  - split.
    + intros H. bok H as l E. apply R in E; [|lia]. destruct E as [_ E].
      apply byte_at_ok in H. apply E in H. rewrite Hz in H. exact H.
    + intros H. rewrite (proj2 (R 1 [v] ltac:(lia))); [reflexivity|].
      split; [reflexivity|]. intros k b Hb. pose proof (nth_byte_some _ _ _ Hb) as K. cbn in K.
      assert (k = 0) by lia. subst k. cbn in Hb. injection Hb as <-. rewrite Hz. exact H.
  - split.
    + intros H. bok H as l E. apply R in E; [|lia]. destruct E as [_ E].
      bok H as b0 E0. bok H as b1 E1. injection H as <-.
      apply byte_at_ok in E0, E1. apply E in E0, E1. rewrite Hz in E0.
      exists b0, b1. repeat split; try assumption. lia.
    + intros (b0 & b1 & H0 & H1 & ->).
      rewrite (proj2 (R 2 [b0; b1] ltac:(lia))).
      * change (Ok (b0 + b1 * 256) = Ok (b0 + 256 * b1)). f_equal. lia.
      * split; [reflexivity|]. intros k b Hb. pose proof (nth_byte_some _ _ _ Hb) as K. cbn in K.
        assert (D : k = 0 \/ k = 1) by lia. destruct D; subst k; cbn in Hb; injection Hb as <-.
        -- rewrite Hz. exact H0.
        -- exact H1.
  - split.
    + intros H. bok H as l E. apply R in E; [|lia]. destruct E as [_ E].
      bok H as b0 E0. bok H as b1 E1. bok H as b2 E2. injection H as <-.
      apply byte_at_ok in E0, E1, E2. apply E in E0, E1, E2. rewrite Hz in E0.
      exists b0, b1, b2. repeat split; try assumption. lia.
    + intros (b0 & b1 & b2 & H0 & H1 & H2 & ->).
      rewrite (proj2 (R 3 [b0; b1; b2] ltac:(lia))).
      * change (Ok (b0 + b1 * 256 + b2 * 256 * 256) = Ok (b0 + 256 * b1 + 65536 * b2)). f_equal. lia.
      * split; [reflexivity|]. intros k b Hb. pose proof (nth_byte_some _ _ _ Hb) as K. cbn in K.
        assert (D : k = 0 \/ k = 1 \/ k = 2) by lia.
        destruct D as [D|[D|D]]; subst k; cbn in Hb; injection Hb as <-.
        -- rewrite Hz. exact H0.
        -- exact H1.
        -- exact H2.
Qed.

(** ** Identity sink. *)
Lemma zlist_eqb_eq : forall a b, zlist_eqb a b = true <-> a = b.
Proof.
  induction a as [|x a IH]; intros [|y b]; cbn; split; intros H; try discriminate; try reflexivity.
  - apply andb_true_iff in H. destruct H as [H1 H2]. apply Z.eqb_eq in H1. apply IH in H2. congruence.
  - injection H as -> ->. apply andb_true_iff. split; [apply Z.eqb_refl|]. apply IH. reflexivity.
Qed.
Lemma first_difference_err : forall d a, List.length d = List.length a ->
  exists e, first_difference d a = Err e.
Proof.
  induction d as [|x d IH]; intros [|y a] H; try discriminate; cbn; [eauto|].
  destruct (x =? y); [apply IH; injection H; auto|eauto].
Qed.

Lemma identity_exact : forall r a data, addr24 a -> Z.of_nat (List.length data) <= 2 ^ 16 ->
  (identity_write r a data = Ok tt <->
   forall k b, nth_byte data k = Some b -> in_rom r (same_bank_plus a k) b) /\
  (identity_write r a data = Ok tt \/ exists e, identity_write r a data = Err e).
Proof.
  intros r a data Ha Hl. unfold identity_write.
  assert (R := proj1 (rom_read_exact r a (zlen data) Ha ltac:(unfold zlen; lia))).
  unfold zlen in *.
  destruct (rom_read_total r a (Z.of_nat (List.length data)) Ha) as [[l E]|[e E]]; rewrite E; cbn [bind].
  - pose proof (proj1 (R l) E) as [L H].
    destruct (zlist_eqb l data) eqn:Q.
    + apply zlist_eqb_eq in Q. subst l. split; [|left; reflexivity].
      split; [intros _; exact H|reflexivity].
    + destruct (first_difference_err data l) as [e Ee]; [lia|]. rewrite Ee.
      split; [|eauto]. split; [discriminate|]. intros H'. exfalso.
      assert (rom_read r a (Z.of_nat (List.length data)) = Ok data) as E'.
      { apply R. split; [reflexivity|exact H']. }
      rewrite E in E'. injection E' as ->.
      assert (zlist_eqb data data = true) by (apply zlist_eqb_eq; reflexivity). congruence.
  - split; [|eauto]. split; [discriminate|]. intros H'. exfalso.
    assert (rom_read r a (Z.of_nat (List.length data)) = Ok data) as E'.
    { apply R. split; [reflexivity|exact H']. }
    congruence.
Qed.

(** ** Overwriting sink. *)
Lemma overwrite_loop_length : forall m a data i img img' r,
  overwrite_loop m img a i data = (img', r) -> List.length img' = List.length img.
Proof.
  intros m a. induction data as [|d data IH]; intros i img img' r H; cbn [overwrite_loop] in H.
  - congruence.
  - destruct (snes_to_rom (add_wrapped a i) m) as [idx|e|u|]; try congruence.
    destruct (zlen img <? idx); [congruence|]. destruct (idx =? zlen img); [congruence|].
    apply IH in H. rewrite H. apply zset_length.
Qed.

(** Byte [off] of the result: the last write to it, or the old value. *)
Lemma overwrite_loop_ok : forall m a, addr24 a -> forall data i img img', 
  overwrite_loop m img a i data = (img', Ok tt) ->
  (forall k d, nth_byte data k = Some d ->
     exists off, snes_to_rom (add_wrapped a (i + k)) m = Ok off /\ 0 <= off < Z.of_nat (List.length img) /\
       ((forall k', k < k' < Z.of_nat (List.length data) -> snes_to_rom (add_wrapped a (i + k')) m <> Ok off) ->
        nth_byte img' off = Some d)) /\
  (forall off, (forall k, 0 <= k < Z.of_nat (List.length data) ->
                snes_to_rom (add_wrapped a (i + k)) m <> Ok off) ->
     nth_byte img' off = nth_byte img off).
Proof.
  intros m a Ha. induction data as [|d data IH]; intros i img img' H; cbn [overwrite_loop] in H.
  - injection H as <-. split; [|reflexivity].
    intros k d Hd. apply nth_byte_some in Hd. cbn in Hd. lia.
  - destruct (snes_to_rom (add_wrapped a i) m) as [idx|e|u|] eqn:E; try discriminate.
    unfold zlen in H.
    destruct (Z.ltb_spec (Z.of_nat (List.length img)) idx); [discriminate|].
    destruct (Z.eqb_spec idx (Z.of_nat (List.length img))); [discriminate|].
    assert (H24 : addr24 (add_wrapped a i)) by (apply add_wrapped_24; unfold addr24 in Ha; lia).
    pose proof (proj1 (snes_range _ _ _ H24 E)) as Hr.
    destruct (IH _ _ _ H) as [I1 I2]. rewrite zset_length in I1.
    split.
    + intros k c Hc. pose proof (nth_byte_some _ _ _ Hc) as K. cbn [List.length] in K.
      destruct (Z.eqb_spec k 0).
      * subst k. rewrite nth_byte_0 in Hc. injection Hc as <-.
        exists idx. rewrite Z.add_0_r. split; [exact E|]. split; [lia|].
        intros Hlast. rewrite I2.
        -- apply zset_same. lia.
        -- intros k Hk. specialize (Hlast (k + 1)). cbn [List.length] in Hlast.
           replace (i + 1 + k) with (i + (k + 1)) by lia. apply Hlast. lia.
      * replace k with ((k - 1) + 1) in Hc by lia. rewrite nth_byte_S in Hc by lia.
        destruct (I1 _ _ Hc) as [off [O1 [O2 O3]]]. exists off.
        replace (i + 1 + (k - 1)) with (i + k) in O1 by lia.
        split; [exact O1|]. split; [exact O2|]. intros Hlast. apply O3.
        intros k' Hk'. specialize (Hlast (k' + 1)). cbn [List.length] in Hlast.
        replace (i + 1 + k') with (i + (k' + 1)) by lia. apply Hlast. lia.
    + intros off Hoff. rewrite I2.
      * apply zset_other. intros ->. apply (Hoff 0); [cbn [List.length]; lia|].
        rewrite Z.add_0_r. exact E.
      * intros k Hk. replace (i + 1 + k) with (i + (k + 1)) by lia.
        apply Hoff. cbn [List.length]. lia.
Qed.

(** Writes of at most one bank never hit the same image byte twice. *)
Lemma write_distinct : forall a m k k' off, addr24 a -> 0 <= k < 65536 -> 0 <= k' < 65536 ->
  snes_to_rom (add_wrapped a k) m = Ok off -> snes_to_rom (add_wrapped a k') m = Ok off -> k = k'.
Proof.
  intros a m k k' off Ha Hk Hk' H1 H2.
  assert (H24 : forall d, addr24 (add_wrapped a d)).
  { intros d. apply add_wrapped_24. unfold addr24 in Ha. lia. }
  destruct (snes_inj _ _ _ _ (H24 k) (H24 k') H1 H2) as [E _].
  rewrite !(proj1 (offset_add_wrapped a _ Ha)) in E. lia.
Qed.

(** No error and no undefined behaviour when all bytes are inside. *)
Lemma overwrite_loop_total : forall m a data i img, addr24 a ->
  (exists img', overwrite_loop m img a i data = (img', Ok tt)) <->
  (forall k, 0 <= k < Z.of_nat (List.length data) ->
     exists off, snes_to_rom (add_wrapped a (i + k)) m = Ok off /\ off < Z.of_nat (List.length img)).
Proof.
  intros m a. induction data as [|d data IH]; intros i img Ha; cbn [overwrite_loop].
  - split; [intros _ k Hk; cbn in Hk; lia|eauto].
  - cbn [List.length]. unfold zlen. split.
    + intros [img' H].
      destruct (overwrite_loop_ok m a Ha (d :: data) i img img' H) as [H1 _].
      intros k Hk. destruct (nth_byte_in (d :: data) k) as [b Hb]; [cbn [List.length]; lia|].
      destruct (H1 k b Hb) as [off [E [Hr _]]]. exists off. split; [exact E|lia].
    + intros H. destruct (H 0) as [off [E Hr]]; [lia|]. rewrite Z.add_0_r in E. rewrite E.
      replace (Z.of_nat (List.length img) <? off) with false by lia.
      replace (off =? Z.of_nat (List.length img)) with false by lia.
      apply IH; [exact Ha|]. intros k Hk. rewrite zset_length.
      replace (i + 1 + k) with (i + (k + 1)) by lia. apply H. lia.
Qed.

Lemma overwrite_exact : forall o a data o' r, addr24 a ->
  overwrite_write o a data = (o', r) ->
  let maps k off := snes_to_rom (same_bank_plus a k) (ov_mapping o) = Ok off in
  let n := Z.of_nat (List.length data) in
  ov_mapping o' = ov_mapping o /\
  List.length (ov_data o') = List.length (ov_data o) /\
  (r = Ok tt <-> forall k, 0 <= k < n ->
     exists off, maps k off /\ off < Z.of_nat (List.length (ov_data o))) /\
  (r = Ok tt -> n <= 2 ^ 16 ->
     (forall k d off, nth_byte data k = Some d -> maps k off -> nth_byte (ov_data o') off = Some d) /\
     (forall off, (forall k, 0 <= k < n -> ~ maps k off) ->
        nth_byte (ov_data o') off = nth_byte (ov_data o) off)).
Proof.
  intros o a data o' r Ha H maps n. unfold overwrite_write in H.
  destruct (overwrite_loop (ov_mapping o) (ov_data o) a 0 data) as [img r'] eqn:E.
  injection H as <- <-. cbn [ov_mapping ov_data].
  assert (Hs : forall k, same_bank_plus a k = add_wrapped a (0 + k)).
  { intros k. rewrite Z.add_0_l. symmetry. apply add_wrapped_spec. exact Ha. }
  split; [reflexivity|]. split; [eapply overwrite_loop_length; exact E|]. split.
  - pose proof (overwrite_loop_total (ov_mapping o) a data 0 (ov_data o) Ha) as T. rewrite E in T.
    unfold maps. split.
    + intros ->. intros k Hk. rewrite Hs. apply T; eauto.
    + intros HA. destruct T as [_ T].
      assert (X : exists img', (img, r') = (img', Ok tt)).
      { apply T. intros k Hk. rewrite <- Hs. apply HA. exact Hk. }
      destruct X as [img' X]. congruence.
  - intros -> Hn. destruct (overwrite_loop_ok _ a Ha _ _ _ _ E) as [H1 H2]. unfold maps. split.
    + intros k d off Hd Hm. rewrite Hs in Hm.
      destruct (H1 k d Hd) as [off' [O1 [O2 O3]]].
      assert (off' = off) by congruence. subst off'. apply O3.
      intros k' Hk' C. pose proof (nth_byte_some _ _ _ Hd) as K. fold n in K, Hk'.
      rewrite !Z.add_0_l in *.
      assert (k = k'); [|lia]. eapply write_distinct; eauto; lia.
    + intros off Hoff. apply H2. intros k Hk. rewrite <- Hs. apply Hoff. exact Hk.
Qed.

(** When a write is undefined behaviour. *)
Lemma overwrite_loop_ub : forall m a, addr24 a -> forall data i img,
  (exists img' u, overwrite_loop m img a i data = (img', UB u)) <->
  (exists k, 0 <= k < Z.of_nat (List.length data) /\
     snes_to_rom (add_wrapped a (i + k)) m = Ok (Z.of_nat (List.length img)) /\
     forall k', 0 <= k' < k -> exists off,
       snes_to_rom (add_wrapped a (i + k')) m = Ok off /\ off < Z.of_nat (List.length img)).
Proof.
  intros m a Ha. induction data as [|d data IH]; intros i img; cbn [overwrite_loop].
  - split; [intros (? & ? & H); discriminate|intros (k & Hk & _); cbn in Hk; lia].
  - cbn [List.length]. unfold zlen.
    destruct (snes_ok_or_err (add_wrapped a i) m) as [[idx E]|E].
    { apply add_wrapped_24. unfold addr24 in Ha. lia. }
    + rewrite E.
      destruct (Z.ltb_spec (Z.of_nat (List.length img)) idx).
      { split; [intros (? & ? & D); discriminate|]. intros (k & Hk & Hm & Hb).
        destruct (Z.eqb_spec k 0).
        - subst k. rewrite Z.add_0_r in Hm. rewrite E in Hm. injection Hm as Hm. lia.
        - destruct (Hb 0) as [off [E' L]]; [lia|]. rewrite Z.add_0_r, E in E'.
          injection E' as <-. lia. }
      destruct (Z.eqb_spec idx (Z.of_nat (List.length img))) as [Ei|Ei].
      { split; [|eauto]. intros _. exists 0. split; [lia|]. split.
        - rewrite Z.add_0_r, E, Ei. reflexivity.
        - intros k' Hk'. lia. }
      rewrite IH. rewrite zset_length. split.
      * intros (k & Hk & Hm & Hb). exists (k + 1). split; [lia|].
        replace (i + (k + 1)) with (i + 1 + k) by lia. split; [exact Hm|].
        intros k' Hk'. destruct (Z.eqb_spec k' 0).
        -- subst k'. exists idx. rewrite Z.add_0_r. split; [exact E|lia].
        -- replace (i + k') with (i + 1 + (k' - 1)) by lia. apply Hb. lia.
      * intros (k & Hk & Hm & Hb).
        destruct (Z.eqb_spec k 0).
        -- subst k. rewrite Z.add_0_r, E in Hm. injection Hm as Hm. lia.
        -- exists (k - 1). split; [lia|]. replace (i + 1 + (k - 1)) with (i + k) by lia.
           split; [exact Hm|]. intros k' Hk'. replace (i + 1 + k') with (i + (k' + 1)) by lia.
           apply Hb. lia.
    + rewrite E. split; [intros (? & ? & D); discriminate|]. intros (k & Hk & Hm & Hb).
      destruct (Z.eqb_spec k 0).
      * subst k. rewrite Z.add_0_r, E in Hm. discriminate.
      * destruct (Hb 0) as [off [E' _]]; [lia|]. rewrite Z.add_0_r, E in E'. discriminate.
Qed.

Lemma overwrite_ub : forall o a data, addr24 a ->
  let size := Z.of_nat (List.length (ov_data o)) in
  (exists o' u, overwrite_write o a data = (o', UB u)) <->
  (exists k, 0 <= k < Z.of_nat (List.length data) /\
     snes_to_rom (same_bank_plus a k) (ov_mapping o) = Ok size /\
     forall k', 0 <= k' < k -> exists off,
       snes_to_rom (same_bank_plus a k') (ov_mapping o) = Ok off /\ off < size).
Proof.
  intros o a data Ha size. pose proof (overwrite_loop_ub (ov_mapping o) a Ha data 0 (ov_data o)) as H.
  fold size in H.
  assert (Hs : forall k, same_bank_plus a k = add_wrapped a (0 + k)).
  { intros k. rewrite Z.add_0_l. symmetry. apply add_wrapped_spec. exact Ha. }
  unfold overwrite_write.
  destruct (overwrite_loop (ov_mapping o) (ov_data o) a 0 data) as [img r] eqn:E.
  split.
  - intros (o' & u & D). injection D as _ ->.
    destruct (proj1 H) as (k & Hk & Hm & Hb); [eauto|].
    exists k. rewrite Hs. split; [exact Hk|]. split; [exact Hm|]. intros k' Hk'. rewrite Hs.
    apply Hb. exact Hk'.
  - intros (k & Hk & Hm & Hb). destruct (proj2 H) as (img' & u & D).
    + exists k. rewrite <- Hs. split; [exact Hk|]. split; [exact Hm|]. intros k' Hk'. rewrite <- Hs.
      apply Hb. exact Hk'.
    + injection D as -> ->. eauto.
Qed.

(** ** Loading. *)
Lemma check_header_ok : forall data base, 0 <= base -> base + 0x30 <= Z.of_nat (List.length data) ->
  exists b, check_snes_header data base = Ok b.
Proof.
  intros data base H0 H. unfold check_snes_header.
  assert (B : forall i, 0 <= i < 48 -> exists x, byte_at data (base + i) = Ok x).
  { intros i Hi. destruct (nth_byte_in data (base + i)) as [x Hx]; [lia|].
    exists x. apply byte_at_ok. exact Hx. }
  destruct (B 0x2c) as [x1 E1]; [lia|]. destruct (B 0x2d) as [x2 E2]; [lia|].
  destruct (B 0x2e) as [x3 E3]; [lia|]. destruct (B 0x2f) as [x4 E4]; [lia|].
  rewrite E1, E2, E3, E4. cbn [bind]. eauto.
Qed.

Lemma check_header_iff : forall data base b, check_snes_header data base = Ok b ->
  (b = true <-> header_at data base).
Proof.
  intros data base b H. unfold check_snes_header in H.
  bok H as c0 E0. bok H as c1 E1. bok H as k0 E2. bok H as k1 E3. injection H as <-.
  apply byte_at_ok in E0, E1, E2, E3. rewrite andb_true_iff, !Z.eqb_eq. split.
  - intros [H1 H2]. exists c0, c1, k0, k1. auto 10.
  - intros (x0 & x1 & y0 & y1 & F0 & F1 & F2 & F3 & G1 & G2).
    assert (c0 = x0) by congruence. assert (c1 = x1) by congruence.
    assert (k0 = y0) by congruence. assert (k1 = y1) by congruence. subst. auto.
Qed.

Lemma payload_unique : forall f d1 d2, payload f d1 -> payload f d2 -> d1 = d2.
Proof.
  intros f d1 d2 (h1 & E1 & L1 & M1) (h2 & E2 & L2 & M2). subst f.
  assert (Hl : List.length h1 = List.length h2).
  { apply (f_equal (@List.length Z)) in E2. rewrite !app_length in E2. lia. }
  clear - E2 Hl. revert h2 E2 Hl. induction h1; intros [|y h2] E Hl; try discriminate; [exact E|].
  cbn in E. injection E as _ E. eapply IHh1; eauto.
Qed.

Lemma load_unfold : forall file,
  (exists data, payload file data) -> forall data, payload file data ->
  load_rom file =
    if zlen file <=? 0 then Err E_rom_range
    else if zlen data =? 0 then UB UB_oob
    else if zlen data <? 0x10000 then Err E_rom_range
    else
      let* maybe_lorom := check_snes_header data 0x7fb0 in
      let* maybe_hirom := check_snes_header data 0xffb0 in
      if Bool.eqb maybe_lorom maybe_hirom then Err E_rom_range
      else if maybe_lorom then Ok (Rom LoRom data)
      else if zlen data <? 0x400000 then Ok (Rom HiRom data)
      else Ok (Rom ExHiRom data).
Proof.
  intros file _ data (h & -> & Hl & Hm). unfold load_rom. cbv zeta.
  unfold zlen in *. rewrite app_length.
  destruct (Z.of_nat (List.length h + List.length data) <=? 0); [reflexivity|].
  destruct Hl as [Hl|Hl]; rewrite Hl.
  - destruct h; [|discriminate]. cbn [Nat.add app].
    rewrite Hm. cbn [Z.eqb negb andb]. reflexivity.
  - replace (Z.of_nat (512 + List.length data) mod 4096) with 512 by lia.
    cbn [Z.eqb Pos.eqb negb andb].
    assert (Es : skipn 512 (h ++ data) = data).
    { rewrite <- Hl. rewrite skipn_app, skipn_all, Nat.sub_diag. reflexivity. }
    rewrite Es. replace (Z.of_nat (512 + List.length data) - 512) with (Z.of_nat (List.length data)) by lia.
    reflexivity.
Qed.

Lemma load_no_payload : forall file, (forall data, ~ payload file data) ->
  load_rom file = Err E_rom_range.
Proof.
  intros file H. unfold load_rom. cbv zeta.
  destruct (Z.leb_spec (zlen file) 0) as [|H0]; [reflexivity|]. unfold zlen in *.
  destruct (Z.eqb_spec (Z.of_nat (List.length file) mod 4096) 0) as [E|E].
  { exfalso. apply (H file). exists []. repeat split; auto. }
  destruct (Z.eqb_spec (Z.of_nat (List.length file) mod 4096) 512) as [E'|E'].
  { exfalso. apply (H (skipn 512 file)). exists (firstn 512 file).
    rewrite firstn_skipn. split; [reflexivity|].
    assert (512 <= List.length file)%nat by lia.
    rewrite firstn_length, skipn_length. lia. }
  reflexivity.
Qed.

Lemma payload_dec : forall file, (exists data, payload file data) \/ (forall data, ~ payload file data).
Proof.
  intros file.
  destruct (Z.eqb_spec (Z.of_nat (List.length file) mod 4096) 0) as [E|E].
  { left. exists file, []. repeat split; auto. }
  destruct (Z.eqb_spec (Z.of_nat (List.length file) mod 4096) 512) as [E'|E'].
  { left. exists (skipn 512 file), (firstn 512 file). 
    rewrite firstn_skipn. split; [reflexivity|].
    assert (512 <= List.length file)%nat by lia.
    rewrite firstn_length, skipn_length. lia. }
  right. intros data (h & -> & Hl & Hm). rewrite app_length in *. lia.
Qed.

Lemma load_exact : forall file,
  (forall r, load_rom file = Ok r <->
     exists data, payload file data /\ rom_data r = data /\ 2 ^ 16 <= Z.of_nat (List.length data) /\
       match rom_mapping r with
       | LoRom => header_at data 0x7fb0 /\ ~ header_at data 0xffb0
       | HiRom => ~ header_at data 0x7fb0 /\ header_at data 0xffb0 /\
                  Z.of_nat (List.length data) < 2 ^ 22
       | ExHiRom => ~ header_at data 0x7fb0 /\ header_at data 0xffb0 /\
                  2 ^ 22 <= Z.of_nat (List.length data)
       end) /\
  ((exists u, load_rom file = UB u) <-> List.length file = 512%nat) /\
  load_rom file <> OutOfFuel.
Proof.
  intros file. change (2^16) with 65536. change (2^22) with 4194304.
  destruct (payload_dec file) as [[data P]|N].
  - rewrite (load_unfold file (ex_intro _ data P) data P). unfold zlen.
    assert (Hfile : List.length file = 512%nat <->
                    (0 < List.length file /\ List.length data = 0)%nat).
    { destruct P as (h & -> & Hl & Hm). rewrite app_length. lia. }
    assert (Hd : (List.length data <= List.length file)%nat).
    { destruct P as (h & -> & Hl & Hm). rewrite app_length. lia. }
    destruct (Z.leb_spec (Z.of_nat (List.length file)) 0).
    { split; [|split].
      - intros r. split; [discriminate|]. intros (d & P' & _ & L & _).
        rewrite (payload_unique _ _ _ P' P) in L. lia.
      - split; [intros [u D]; discriminate|]. intros. lia.
      - discriminate. }
    destruct (Z.eqb_spec (Z.of_nat (List.length data)) 0).
    { split; [|split].
      - intros r. split; [discriminate|]. intros (d & P' & _ & L & _).
        rewrite (payload_unique _ _ _ P' P) in L. lia.
      - split; [intros _; lia|eauto].
      - discriminate. }
    destruct (Z.ltb_spec (Z.of_nat (List.length data)) 65536).
    { split; [|split].
      - intros r. split; [discriminate|]. intros (d & P' & _ & L & _).
        rewrite (payload_unique _ _ _ P' P) in L. lia.
      - split; [intros [u D]; discriminate|]. intros. lia.
      - discriminate. }
    destruct (check_header_ok data 0x7fb0) as [lo Elo]; [lia|lia|].
    destruct (check_header_ok data 0xffb0) as [hi Ehi]; [lia|lia|].
    rewrite Elo, Ehi. cbn [bind].
    pose proof (check_header_iff _ _ _ Elo) as Ilo. pose proof (check_header_iff _ _ _ Ehi) as Ihi.
    split; [|split].
    + intros r. split.
      * intros E. exists data. split; [exact P|].
        destruct lo, hi; cbn [Bool.eqb] in E; try discriminate.
        -- injection E as <-. cbn. repeat split; try lia; [apply Ilo; reflexivity|].
           intros C. apply Ihi in C. discriminate.
        -- destruct (Z.ltb_spec (Z.of_nat (List.length data)) 4194304); injection E as <-; cbn;
             (repeat split; try lia; [intros C; apply Ilo in C; discriminate|apply Ihi; reflexivity]).
      * intros (d & P' & E & L & M). rewrite (payload_unique _ _ _ P' P) in *. clear d P'.
        destruct r as [mp dd]. cbn in E, M. subst dd.
        destruct mp.
        -- destruct M as [M1 M2]. apply Ilo in M1. subst lo.
           destruct hi; [exfalso; apply M2, Ihi; reflexivity|]. reflexivity.
        -- destruct M as [M1 [M2 M3]]. apply Ihi in M2. subst hi.
           destruct lo; [exfalso; apply M1, Ilo; reflexivity|]. cbn [Bool.eqb].
           replace (Z.of_nat (List.length data) <? 4194304) with true by lia. reflexivity.
        -- destruct M as [M1 [M2 M3]]. apply Ihi in M2. subst hi.
           destruct lo; [exfalso; apply M1, Ilo; reflexivity|]. cbn [Bool.eqb].
           replace (Z.of_nat (List.length data) <? 4194304) with false by lia. reflexivity.
    + split; [|intros; lia]. intros [u E].
      destruct (Bool.eqb lo hi); [discriminate|]. destruct lo; [discriminate|].
      destruct (Z.of_nat (List.length data) <? 4194304); discriminate.
    + destruct (Bool.eqb lo hi); [discriminate|]. destruct lo; [discriminate|].
      destruct (Z.of_nat (List.length data) <? 4194304); discriminate.
  - rewrite (load_no_payload file N). split; [|split].
    + intros r. split; [discriminate|]. intros (d & P & _). exfalso. exact (N d P).
    + split; [intros [u D]; discriminate|]. intros E. exfalso. apply (N []).
      exists file. rewrite app_nil_r. split; [reflexivity|]. split; [right; exact E|reflexivity].
    + discriminate.
Qed.

(** ** Statements assembled for the properties. *)
Lemma mapping_full : forall m a, addr24 a -> m <> ExHiRom ->
  (forall off, snes_to_rom a m = Ok off <-> rom_offset m a off) /\
  ((exists off, snes_to_rom a m = Ok off) \/ (exists e, snes_to_rom a m = Err e)).
Proof.
  intros m a Ha Hm. split; [intros off; apply mapping_exact; assumption|].
  destruct (snes_ok_or_err a m Ha); eauto.
Qed.

Lemma mapping_exhirom : forall a, 0 <= a < 2 ^ 23 ->
  (forall off, snes_to_rom a ExHiRom = Ok off <-> rom_offset ExHiRom a off) /\
  ((exists off, snes_to_rom a ExHiRom = Ok off) \/ (exists e, snes_to_rom a ExHiRom = Err e)).
Proof.
  intros a Ha. assert (H24 : addr24 a) by (unfold addr24; lia).
  split; [|destruct (snes_ok_or_err a ExHiRom H24); eauto].
  intros off. rewrite (snes_iff a ExHiRom off H24). split.
  - intros [Hc [_ ->]]. pose proof (ro_ex a Hc) as R.
    replace (a <? 2^23) with true in R by lia. exact R.
  - intros R. inv R. replace (a <? 2^23) with true by lia.
    split; [assumption|]. split; [discriminate|reflexivity].
Qed.

Lemma mapping_range : forall m a off, addr24 a -> snes_to_rom a m = Ok off ->
  match m with ExHiRom => 2 ^ 22 <= off < 2 ^ 23 | _ => 0 <= off < 2 ^ 22 end.
Proof.
  intros m a off Ha H. apply (snes_iff a m off Ha) in H. destruct H as [_ [Hl ->]].
  destruct (addr24_parts a Ha) as [Hb [Ho _]].
  change (2^23) with 8388608. change (2^22) with 4194304.
  destruct m; [specialize (Hl eq_refl)| |]; lia.
Qed.

Lemma mapping_injective : forall m a b off, addr24 a -> addr24 b ->
  snes_to_rom a m = Ok off -> snes_to_rom b m = Ok off ->
  match m with LoRom => a / 2 ^ 23 = b / 2 ^ 23 | _ => a / 2 ^ 22 = b / 2 ^ 22 end ->
  a = b.
Proof.
  intros m a b off Ha Hb H1 H2. destruct (snes_inj a b m off Ha Hb H1 H2) as [E1 E2].
  unfold addr24, offset_of, bank_of in *.
  change (2^24) with 16777216 in *. change (2^16) with 65536 in *.
  change (2^23) with 8388608. change (2^22) with 4194304.
  destruct m; intros E3; lia.
Qed.

(** Every offset of a region is reached: nothing of the image is unreachable below the limit. *)
Lemma mapping_onto : forall off,
  (0 <= off < 2 ^ 22 -> snes_to_rom ((0x80 + off / 2 ^ 15) * 2 ^ 16 + 2 ^ 15 + off mod 2 ^ 15) LoRom = Ok off) /\
  (0 <= off < 2 ^ 22 -> snes_to_rom (0xc00000 + off) HiRom = Ok off).
Proof.
  intros off. change (2^22) with 4194304. change (2^16) with 65536. change (2^15) with 32768.
  split; intros H.
  - apply snes_iff; [unfold addr24; lia|]. unfold cart_address, bank_of, offset_of.
    change (2^16) with 65536. change (2^15) with 32768. lia.
  - apply snes_iff; [unfold addr24; lia|]. unfold cart_address, bank_of, offset_of.
    change (2^16) with 65536. change (2^15) with 32768.
    split; [lia|]. split; [discriminate|lia].
Qed.

Lemma exhirom_wrong : forall a, 0xc00000 <= a < 2 ^ 24 ->
  rom_offset ExHiRom a (a - 0xc00000) /\
  snes_to_rom a ExHiRom = Ok (a - 0xc00000 + 2 ^ 22) /\
  (bank_of a < 0xfe -> snes_to_rom (a - 2 ^ 23) ExHiRom = snes_to_rom a ExHiRom).
Proof.
  intros a Ha. change (2^24) with 16777216 in Ha. change (2^22) with 4194304.
  change (2^23) with 8388608.
  assert (C : cart_address a).
  { unfold cart_address, bank_of, offset_of. change (2^16) with 65536. change (2^15) with 32768. lia. }
  assert (S : snes_to_rom a ExHiRom = Ok (a - 12582912 + 4194304)).
  { apply snes_iff; [unfold addr24; lia|]. split; [exact C|]. split; [discriminate|].
    unfold bank_of, offset_of. change (2^16) with 65536. lia. }
  split; [|split; [exact S|]].
  - pose proof (ro_ex a C) as R. replace (a <? 2^23) with false in R by lia.
    replace (a - 12582912) with (bank_of a mod 64 * 2 ^ 16 + offset_of a + 0); [exact R|].
    unfold bank_of, offset_of. change (2^16) with 65536. lia.
  - intros Hb. rewrite S. apply snes_iff; [unfold addr24; lia|].
    unfold bank_of in Hb. change (2^16) with 65536 in Hb.
    unfold cart_address, bank_of, offset_of. change (2^16) with 65536. change (2^15) with 32768.
    split; [lia|]. split; [discriminate|lia].
Qed.

Lemma read_short : exists r a len l, addr24 a /\
  rom_read r a len = Ok l /\ Z.of_nat (List.length l) <> len.
Proof.
  exists (Rom LoRom [1; 2]), 0x8000, 0x10002, [1; 2].
  repeat split; vm_compute; congruence.
Qed.

Lemma repeat_zero_length : forall n, List.length (repeat 0 n) = n.
Proof. intros. apply repeat_length. Qed.

Lemma identity_long : exists r a data, addr24 a /\ identity_write r a data = UB UB_oob.
Proof.
  exists (Rom LoRom [0; 0]), 0x8000, (repeat 0 (Z.to_nat 0x10002)).
  split; [unfold addr24; lia|]. vm_compute. reflexivity.
Qed.

Lemma overwriter_never : forall r, overwriter_create r = UB UB_null.
Proof. reflexivity. Qed.

(** A 64 KB image with a LoROM header and a copier header. *)
Definition load_example : list Z :=
  repeat 0xAA (Z.to_nat 512) ++ repeat 0 (Z.to_nat 0x7fdc) ++ [0x34; 0x12; 0xcb; 0xed]
  ++ repeat 0 (Z.to_nat 0x8020).
