(** Reads and writes of any length. *)
From Verif Require Import Base ModelNumeric ModelAddress ModelMap ModelRom SpecArith SpecRom BaseProofs ArithProofs MapProofs RomProofs.
Open Scope Z_scope.

Lemma wrapped_mod : forall a len, addr24 a -> add_wrapped a (len - 1) = add_wrapped a ((len - 1) mod 65536).
Proof. intros a len A. rewrite !add_wrapped_spec by exact A. unfold same_bank_plus. change (2 ^ 16) with 65536. rewrite Z.add_mod_idemp_r by lia. reflexivity. Qed.

(** The number of bytes that a read returns, if it succeeds. *)
Lemma read_any : forall r a len l, addr24 a -> 0 < len ->
  let n := (len - 1) mod 2 ^ 16 + 1 in
  let got := if (1 <? n) && (offset_of a + n <=? 2 ^ 16) then n else len in
  rom_read r a len = Ok l <->
  Z.of_nat (List.length l) = got /\ forall k b, nth_byte l k = Some b -> in_rom r (same_bank_plus a k) b.
Proof.
  intros r a len l A P n got. change (2 ^ 16) with 65536 in *. assert (N : 1 <= n <= 65536) by (unfold n; lia).
  assert (W : add_wrapped a (len - 1) = add_wrapped a (n - 1)) by (rewrite (wrapped_mod a len A); f_equal; unfold n; lia).
  assert (H24 : forall d, addr24 (add_wrapped a d)) by (intros d; apply add_wrapped_24; unfold addr24 in A; lia).
  assert (Hz : add_wrapped a 0 = a).
  { rewrite add_wrapped_spec by exact A. unfold same_bank_plus. destruct (addr24_parts a A) as [? [? E]]. rewrite Z.add_0_r. change (2 ^ 16) with 65536. rewrite Z.mod_small by lia. lia. }
  assert (G : rom_read r a len = Ok l <-> Z.of_nat (List.length l) = got /\ forall k b, nth_byte l k = Some b -> in_rom r (add_wrapped a k) b).
  2:{ rewrite G. split; intros [E H]; (split; [exact E|]); intros k b K; specialize (H k b K); rewrite add_wrapped_spec in * by exact A; exact H. }
  unfold got. destruct ((1 <? n) && (offset_of a + n <=? 65536)) eqn:C.
  - apply andb_true_iff in C as [C1 C2]. apply Z.ltb_lt in C1. apply Z.leb_le in C2.
    assert (E : rom_read r a len = rom_read r a n).
    { unfold rom_read. destruct (Z.eqb_spec len 0); [lia|]. destruct (Z.ltb_spec len 0); [lia|]. destruct (Z.eqb_spec n 0); [lia|]. destruct (Z.ltb_spec n 0); [lia|]. rewrite W.
      destruct (snes_to_rom a (rom_mapping r)) as [first|e|u|] eqn:E1; try reflexivity. destruct (snes_to_rom (add_wrapped a (n - 1)) (rom_mapping r)) as [last|e|u|] eqn:E2; try reflexivity. cbn [bind].
      assert (L : first < last).
      { apply (snes_iff _ _ _ A) in E1 as (_ & L1 & ->). apply (snes_iff _ _ _ (H24 _)) in E2 as (_ & L2 & ->). destruct (offset_add_wrapped a (n - 1) A) as [O2 B2]. rewrite O2, B2 in *. destruct (addr24_parts a A) as [? [? _]].
        rewrite Z.mod_small in * by lia. destruct (rom_mapping r); lia. }
      apply Z.ltb_lt in L. rewrite L. reflexivity. }
    rewrite E. apply rom_read_ok; [exact A|lia].
  - assert (NL : forall first last, snes_to_rom a (rom_mapping r) = Ok first -> snes_to_rom (add_wrapped a (n - 1)) (rom_mapping r) = Ok last -> ~ first < last).
    { intros first last E1 E2 L. destruct (contiguous a _ n first last A ltac:(lia) E1 E2 L) as [EL _].
      apply (snes_iff _ _ _ A) in E1 as (_ & L1 & X1). apply (snes_iff _ _ _ (H24 _)) in E2 as (_ & L2 & X2). destruct (offset_add_wrapped a (n - 1) A) as [O2 B2]. rewrite O2, B2 in *. destruct (addr24_parts a A) as [? [? _]].
      apply andb_false_iff in C as [C|C]; [apply Z.ltb_ge in C; lia|]. apply Z.leb_gt in C.
      destruct (rom_mapping r); [specialize (L1 eq_refl); specialize (L2 eq_refl)| |]; lia. }
    unfold rom_read. destruct (Z.eqb_spec len 0); [lia|]. destruct (Z.ltb_spec len 0) as [X0|X0]; [lia|]. rewrite W. split.
    + intros H. bok H as first E1. bok H as last E2. destruct (Z.ltb_spec first last) as [L|L]; [destruct (NL _ _ E1 E2 L)|]. apply read_loop_ok in H as [HL HK]. split; [lia|exact HK].
    + intros [L H]. destruct (nth_byte_in l 0 ltac:(lia)) as [b0 K0]. destruct (nth_byte_in l (len - 1) ltac:(lia)) as [b1 K1].
      destruct (H _ _ K0) as (first & E1 & _). rewrite Hz in E1. destruct (H _ _ K1) as (last & E2 & _). rewrite W in E2. rewrite E1, E2. cbn [bind].
      destruct (Z.ltb_spec first last) as [X|X]; [destruct (NL _ _ E1 E2 X)|]. apply read_loop_ok. split; [lia|exact H].
Qed.

(** ** The identity sink. *)
Lemma difference_short : forall data actual, (List.length actual < List.length data)%nat ->
  (first_difference data actual = UB UB_oob <-> forall k b, nth_byte actual k = Some b -> nth_byte data k = Some b) /\
  (first_difference data actual = UB UB_oob \/ exists e, first_difference data actual = Err e).
Proof.
  induction data as [|d data IH]; intros [|x actual] L; cbn [List.length] in L; try lia.
  - cbn [first_difference]. split; [|left; reflexivity]. split; [|reflexivity]. intros _ k b K. apply nth_byte_some in K. cbn in K. lia.
  - cbn [first_difference]. destruct (Z.eqb_spec d x) as [->|N].
    + destruct (IH actual ltac:(lia)) as [I1 I2]. split; [|exact I2]. rewrite I1. split; intros H k b K.
      * pose proof (nth_byte_some _ _ _ K). destruct (Z.eqb_spec k 0) as [->|NZ]; [rewrite nth_byte_0 in *; exact K|].
        replace k with (k - 1 + 1) in K |- * by lia. rewrite nth_byte_S in * by lia. apply H. exact K.
      * pose proof (nth_byte_some _ _ _ K). specialize (H (k + 1) b). rewrite !nth_byte_S in H by lia. apply H. exact K.
    + split; [|right; eexists; reflexivity]. split; [discriminate|]. intros H. specialize (H 0 x (nth_byte_0 _ _)). rewrite nth_byte_0 in H. congruence.
Qed.
Lemma first_bytes : forall (l : list Z) n, 0 <= n <= Z.of_nat (List.length l) -> Z.of_nat (List.length (firstn (Z.to_nat n) l)) = n.
Proof. intros l n H. rewrite firstn_length. lia. Qed.
Lemma identity_any : forall r a data, addr24 a -> data <> [] ->
  let len := Z.of_nat (List.length data) in
  let n := (len - 1) mod 2 ^ 16 + 1 in
  let got := if (1 <? n) && (offset_of a + n <=? 2 ^ 16) then n else len in
  let matches m := forall k b, k < m -> nth_byte data k = Some b -> in_rom r (same_bank_plus a k) b in
  (identity_write r a data = Ok tt <-> got = len /\ matches len) /\
  (identity_write r a data = UB UB_oob <-> got < len /\ matches got) /\
  (identity_write r a data = Ok tt \/ identity_write r a data = UB UB_oob \/ exists e, identity_write r a data = Err e).
Proof.
  intros r a data A NE len n got matches. assert (LP : 0 < len) by (unfold len; destruct data; [congruence|cbn [List.length]; lia]).
  pose proof (read_any r a len) as R. assert (GL : 0 < got <= len).
  { unfold got, n. change (2 ^ 16) with 65536. destruct ((1 <? (len - 1) mod 65536 + 1) && (offset_of a + ((len - 1) mod 65536 + 1) <=? 65536)); lia. }
  unfold identity_write. change (zlen data) with len.
  assert (RR : forall l, rom_read r a len = Ok l <-> Z.of_nat (List.length l) = got /\ forall k b, nth_byte l k = Some b -> in_rom r (same_bank_plus a k) b) by (intros l; exact (R l A LP)). clear R.
  assert (PF : matches got -> rom_read r a len = Ok (firstn (Z.to_nat got) data)).
  { intros M. apply RR. assert (FL : Z.of_nat (List.length (firstn (Z.to_nat got) data)) = got) by (apply first_bytes; lia). split; [exact FL|]. intros k b K. pose proof (nth_byte_some _ _ _ K) as KS. rewrite FL in KS. rewrite nth_byte_firstn in K by lia. apply M; [lia|exact K]. }
  destruct (rom_read_total r a len A) as [[l E]|[e E]].
  - rewrite E. cbn [bind]. destruct (proj1 (RR l) E) as [L H]. destruct (zlist_eqb l data) eqn:Q.
    + apply zlist_eqb_eq in Q. subst l. fold len in L. split; [|split; [|left; reflexivity]].
      * split; [|reflexivity]. intros _. split; [symmetry; exact L|]. intros k b _ K. apply H. exact K.
      * split; [discriminate|]. intros [G _]. lia.
    + assert (ND : l <> data) by (intros ->; assert (zlist_eqb data data = true) by (apply zlist_eqb_eq; reflexivity); congruence).
      destruct (Z.eqb_spec got len) as [GE|GN].
      * destruct (first_difference_err data l) as [e Ee]; [unfold len in *; lia|]. rewrite Ee. split; [|split; [|right; right; eexists; reflexivity]].
        -- split; [discriminate|]. intros [_ M]. exfalso. apply ND. rewrite <- GE in M. apply PF in M. rewrite E in M. injection M as ->. apply firstn_all2. unfold len in *. lia.
        -- split; [discriminate|]. intros [G _]. lia.
      * destruct (difference_short data l) as [D1 D2]; [unfold len in *; lia|]. split; [|split].
        -- split; [intros D; destruct D2 as [D2|[e D2]]; rewrite D2 in D; discriminate D|]. intros [G _]. lia.
        -- rewrite D1. split.
           ++ intros D. split; [lia|]. intros k b K B. pose proof (nth_byte_some _ _ _ B). destruct (nth_byte_in l k) as [c C]; [lia|]. pose proof (D _ _ C) as C'. rewrite B in C'. injection C' as <-. apply H. exact C.
           ++ intros [_ M] k b K. apply PF in M. rewrite E in M. injection M as ->. pose proof (nth_byte_some _ _ _ K) as KS. rewrite first_bytes in KS by lia. rewrite nth_byte_firstn in K by lia. exact K.
        -- destruct D2 as [D2|D2]; [right; left; exact D2|right; right; exact D2].
  - rewrite E. cbn [bind]. split; [|split; [|right; right; eexists; reflexivity]]; (split; [discriminate|]); intros [G M].
    + rewrite <- G in M. apply PF in M. congruence.
    + apply PF in M. congruence.
Qed.

(** ** The overwriting sink. *)
Lemma overwrite_any : forall o a data o' , addr24 a -> overwrite_write o a data = (o', Ok tt) ->
  let maps k off := snes_to_rom (same_bank_plus a k) (ov_mapping o) = Ok off in
  let n := Z.of_nat (List.length data) in
  (forall k d off, nth_byte data k = Some d -> maps k off -> (forall k', k < k' < n -> ~ maps k' off) -> nth_byte (ov_data o') off = Some d) /\
  (forall off, (forall k, 0 <= k < n -> ~ maps k off) -> nth_byte (ov_data o') off = nth_byte (ov_data o) off).
Proof.
  intros o a data o' A H maps n. unfold overwrite_write in H. destruct (overwrite_loop (ov_mapping o) (ov_data o) a 0 data) as [img r'] eqn:E. injection H as <- ->. cbn [ov_data].
  assert (Hs : forall k, same_bank_plus a k = add_wrapped a (0 + k)) by (intros k; rewrite Z.add_0_l; symmetry; apply add_wrapped_spec; exact A).
  destruct (overwrite_loop_ok _ a A _ _ _ _ E) as [H1 H2]. unfold maps. split.
  - intros k d off D M LA. rewrite Hs in M. destruct (H1 k d D) as (off' & O1 & O2 & O3). assert (off' = off) by congruence. subst off'. apply O3. intros k' K' C. apply (LA k' K'). rewrite Hs. exact C.
  - intros off N. apply H2. intros k K. rewrite <- Hs. apply N. exact K.
Qed.

(** ** ExHiROM as it is. *)
Lemma exhirom_actual : forall a off, addr24 a ->
  (snes_to_rom a ExHiRom = Ok off <-> cart_address a /\ off = (bank_of a mod 0x40) * 2 ^ 16 + offset_of a + 2 ^ 22).
Proof. intros a off A. rewrite (snes_iff a ExHiRom off A). change (2 ^ 16) with 65536. change (2 ^ 22) with 4194304. intuition discriminate. Qed.
