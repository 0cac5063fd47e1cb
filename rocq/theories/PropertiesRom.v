(** Property theorems for cartridges: C31, C32, C33, C42. *)
From Verif Require Import Base ModelAddress ModelRom SpecArith SpecRom RomProofs RomLongProofs.

(** C31.  LoROM and HiROM addresses map to the documented offset, all others are rejected. *)
Theorem C31_mapping : forall m a, addr24 a -> m <> ExHiRom ->
  (forall off, snes_to_rom a m = Ok off <-> rom_offset m a off) /\
  ((exists off, snes_to_rom a m = Ok off) \/ (exists e, snes_to_rom a m = Err e)).
Proof. exact mapping_full. Qed.
Example C31_mapping_case :
  addr24 0x818123 /\ snes_to_rom 0x818123 LoRom = Ok 0x8123 /\
  snes_to_rom 0xc18123 HiRom = Ok 0x18123 /\ snes_to_rom 0x7e0000 HiRom = Err E_rom_address.
Proof. repeat split; vm_compute; congruence. Qed.
Print Assumptions C31_mapping.

(** ExHiROM: correct in banks $00-$7F.  Missing: banks $80-$FF, where it is wrong (below). *)
Theorem C31_exhirom_partial : forall a, 0 <= a < 2 ^ 23 ->
  (forall off, snes_to_rom a ExHiRom = Ok off <-> rom_offset ExHiRom a off) /\
  ((exists off, snes_to_rom a ExHiRom = Ok off) \/ (exists e, snes_to_rom a ExHiRom = Err e)).
Proof. exact mapping_exhirom. Qed.
Example C31_exhirom_partial_case :
  snes_to_rom 0x400010 ExHiRom = Ok 0x400010 /\ snes_to_rom 0x000010 ExHiRom = Err E_rom_address.
Proof. split; reflexivity. Qed.
Print Assumptions C31_exhirom_partial.

(** In banks $C0-$FF ExHiROM addresses do not reach their documented offset, and two
    addresses in different primary regions reach the same byte. *)
Theorem C31_exhirom_refuted : forall a, 0xc00000 <= a < 2 ^ 24 ->
  rom_offset ExHiRom a (a - 0xc00000) /\
  snes_to_rom a ExHiRom = Ok (a - 0xc00000 + 2 ^ 22) /\
  (bank_of a < 0xfe -> snes_to_rom (a - 2 ^ 23) ExHiRom = snes_to_rom a ExHiRom).
Proof. exact exhirom_wrong. Qed.
Example C31_exhirom_refuted_case :
  snes_to_rom 0xc08000 ExHiRom = Ok 0x408000 /\ snes_to_rom 0x408000 ExHiRom = Ok 0x408000.
Proof. split; reflexivity. Qed.
Print Assumptions C31_exhirom_refuted.

(** In every bank, ExHiROM addresses map as if address bit 23 were clear. *)
Theorem C31_exhirom_actual : forall a off, addr24 a ->
  (snes_to_rom a ExHiRom = Ok off <->
   cart_address a /\ off = (bank_of a mod 0x40) * 2 ^ 16 + offset_of a + 2 ^ 22).
Proof. exact exhirom_actual. Qed.
Example C31_exhirom_actual_case : addr24 0x808000 /\ snes_to_rom 0x808000 ExHiRom = Ok 0x408000.
Proof. split; [unfold addr24; lia|reflexivity]. Qed.
Print Assumptions C31_exhirom_actual.

(** Offsets are in the range of the mode. *)
Theorem C31_range : forall m a off, addr24 a -> snes_to_rom a m = Ok off ->
  match m with ExHiRom => 2 ^ 22 <= off < 2 ^ 23 | _ => 0 <= off < 2 ^ 22 end.
Proof. exact mapping_range. Qed.
Example C31_range_case : addr24 0xffffff /\ snes_to_rom 0xffffff LoRom = Ok 0x3fffff.
Proof. repeat split; vm_compute; congruence. Qed.
Print Assumptions C31_range.

(** Within a half (LoROM) or a quarter (HiROM, ExHiROM) of the address space, distinct
    addresses have distinct offsets. *)
Theorem C31_injective : forall m a b off, addr24 a -> addr24 b ->
  snes_to_rom a m = Ok off -> snes_to_rom b m = Ok off ->
  match m with LoRom => a / 2 ^ 23 = b / 2 ^ 23 | _ => a / 2 ^ 22 = b / 2 ^ 22 end ->
  a = b.
Proof. exact mapping_injective. Qed.
Example C31_injective_case :
  snes_to_rom 0x018000 LoRom = Ok 0x8000 /\ snes_to_rom 0x818000 LoRom = Ok 0x8000 /\
  0x018000 / 2 ^ 23 <> 0x818000 / 2 ^ 23.
Proof. repeat split. vm_compute. discriminate. Qed.
Print Assumptions C31_injective.

(** Every byte of a 4 MB image can be addressed. *)
Theorem C31_onto : forall off,
  (0 <= off < 2 ^ 22 ->
   snes_to_rom ((0x80 + off / 2 ^ 15) * 2 ^ 16 + 2 ^ 15 + off mod 2 ^ 15) LoRom = Ok off) /\
  (0 <= off < 2 ^ 22 -> snes_to_rom (0xc00000 + off) HiRom = Ok off).
Proof. exact mapping_onto. Qed.
Example C31_onto_case : snes_to_rom 0xffffff HiRom = Ok 0x3fffff.
Proof. reflexivity. Qed.
Print Assumptions C31_onto.

(** C32.  A read of up to a bank returns exactly the mapped bytes, and succeeds exactly when
    all of them exist; it always returns bytes or an error.
    Missing from the full statement: lengths above 65536, where it fails (below). *)
Theorem C32_read_partial : forall r a len, addr24 a -> 0 <= len <= 2 ^ 16 ->
  (forall l, rom_read r a len = Ok l <->
     Z.of_nat (List.length l) = len /\
     forall k b, nth_byte l k = Some b -> in_rom r (same_bank_plus a k) b) /\
  ((exists l, rom_read r a len = Ok l) \/ (exists e, rom_read r a len = Err e)).
Proof. exact rom_read_exact. Qed.
Example C32_read_partial_case :
  let r := Rom LoRom (repeat 7 0x7fff ++ [1; 2; 3]) in
  rom_read r 0x00ffff 1 = Ok [1] /\ rom_read r 0x018000 2 = Ok [2; 3] /\
  rom_read r 0x018000 3 = Err E_rom_range.
Proof. repeat split; vm_compute; reflexivity. Qed.
Print Assumptions C32_read_partial.

Theorem C32_read_succeeds : forall r a len, addr24 a -> 0 <= len <= 2 ^ 16 ->
  ((exists l, rom_read r a len = Ok l) <->
   forall k, 0 <= k < len -> exists b, in_rom r (same_bank_plus a k) b).
Proof. exact rom_read_succeeds. Qed.
Example C32_read_succeeds_case : rom_read (Rom HiRom [5]) 0xc00000 1 = Ok [5].
Proof. reflexivity. Qed.
Print Assumptions C32_read_succeeds.

(** A longer read may return fewer bytes than asked for. *)
Theorem C32_read_refuted : exists r a len l, addr24 a /\
  rom_read r a len = Ok l /\ Z.of_nat (List.length l) <> len.
Proof. exact read_short. Qed.
Print Assumptions C32_read_refuted.

(** What a read of any length returns: the bytes up to the last address asked for, without the
    whole turns around the bank, if these addresses do not wrap; else all of them. *)
Theorem C32_read_any : forall r a len l, addr24 a -> 0 < len ->
  let n := (len - 1) mod 2 ^ 16 + 1 in
  let got := if (1 <? n) && (offset_of a + n <=? 2 ^ 16) then n else len in
  rom_read r a len = Ok l <->
  Z.of_nat (List.length l) = got /\
  forall k b, nth_byte l k = Some b -> in_rom r (same_bank_plus a k) b.
Proof. exact read_any. Qed.
Example C32_read_any_case :
  rom_read (Rom HiRom [5; 6; 7]) 0xc00000 0x10002 = Ok [5; 6] /\
  (offset_of 0xc00000 + ((0x10002 - 1) mod 2 ^ 16 + 1) <=? 2 ^ 16) = true.
Proof. split; vm_compute; reflexivity. Qed.
Print Assumptions C32_read_any.

(** Byte, word and long reads are little-endian and wrap in the bank. *)
Theorem C32_values : forall r a, addr24 a ->
  (forall v, read_byte (rom_read r) a = Ok v <-> in_rom r a v) /\
  (forall v, read_word (rom_read r) a = Ok v <->
     exists b0 b1, in_rom r a b0 /\ in_rom r (same_bank_plus a 1) b1 /\ v = b0 + 2 ^ 8 * b1) /\
  (forall v, read_long (rom_read r) a = Ok v <->
     exists b0 b1 b2, in_rom r a b0 /\ in_rom r (same_bank_plus a 1) b1 /\
       in_rom r (same_bank_plus a 2) b2 /\ v = b0 + 2 ^ 8 * b1 + 2 ^ 16 * b2).
Proof. exact read_values. Qed.
Example C32_values_case : read_long (rom_read (Rom HiRom [0x12; 0x34; 0x56])) 0xc00000 = Ok 0x563412.
Proof. reflexivity. Qed.
Print Assumptions C32_values.

(** C33.  The identity sink accepts exactly the writes that match the ROM.
    Missing from the full statement: writes longer than a bank (below). *)
Theorem C33_identity_partial : forall r a data, addr24 a -> Z.of_nat (List.length data) <= 2 ^ 16 ->
  (identity_write r a data = Ok tt <->
   forall k b, nth_byte data k = Some b -> in_rom r (same_bank_plus a k) b) /\
  (identity_write r a data = Ok tt \/ exists e, identity_write r a data = Err e).
Proof. exact identity_exact. Qed.
Example C33_identity_partial_case :
  identity_write (Rom HiRom [1; 2]) 0xc00000 [1; 2] = Ok tt /\
  identity_write (Rom HiRom [1; 2]) 0xc00000 [1; 3] = Err E_mismatch.
Proof. split; reflexivity. Qed.
Print Assumptions C33_identity_partial.

(** Checking a longer write may read outside the bytes read from the ROM. *)
Theorem C33_identity_refuted : exists r a data, addr24 a /\
  identity_write r a data = UB UB_oob.
Proof. exact identity_long. Qed.
Print Assumptions C33_identity_refuted.

(** The outcome of checking a write of any length. *)
Theorem C33_identity_any : forall r a data, addr24 a -> data <> [] ->
  let len := Z.of_nat (List.length data) in
  let n := (len - 1) mod 2 ^ 16 + 1 in
  let got := if (1 <? n) && (offset_of a + n <=? 2 ^ 16) then n else len in
  let matches m := forall k b, k < m -> nth_byte data k = Some b -> in_rom r (same_bank_plus a k) b in
  (identity_write r a data = Ok tt <-> got = len /\ matches len) /\
  (identity_write r a data = UB UB_oob <-> got < len /\ matches got) /\
  (identity_write r a data = Ok tt \/ identity_write r a data = UB UB_oob \/
   exists e, identity_write r a data = Err e).
Proof. exact identity_any. Qed.
Example C33_identity_any_case :
  identity_write (Rom LoRom [1; 2]) 0x8000 [1; 2] = Ok tt /\
  identity_write (Rom LoRom [0; 0]) 0x8000 (repeat 0 (Z.to_nat 0x10002)) = UB UB_oob.
Proof. split; vm_compute; reflexivity. Qed.
Print Assumptions C33_identity_any.

(** A write through the overwriting sink succeeds exactly when all its bytes are inside the
    image, and then changes exactly those; the image size never changes. *)
Theorem C33_overwrite_partial : forall o a data o' r, addr24 a ->
  overwrite_write o a data = (o', r) ->
  let maps k off := snes_to_rom (same_bank_plus a k) (ov_mapping o) = Ok off in
  let n := Z.of_nat (List.length data) in
  ov_mapping o' = ov_mapping o /\
  List.length (ov_data o') = List.length (ov_data o) /\
  (r = Ok tt <-> forall k, 0 <= k < n ->
     exists off, maps k off /\ off < Z.of_nat (List.length (ov_data o))) /\
  (r = Ok tt -> n <= 2 ^ 16 ->
     (forall k d off, nth_byte data k = Some d -> maps k off -> nth_byte (ov_data o') off = Some d) /\
     (forall off, (forall k, 0 <= k < n -> ~ maps k off) ->
        nth_byte (ov_data o') off = nth_byte (ov_data o) off)).
Proof. exact overwrite_exact. Qed.
Example C33_overwrite_partial_case :
  overwrite_write (Overwriter HiRom [1; 2; 3]) 0xc00001 [9] = (Overwriter HiRom [1; 9; 3], Ok tt).
Proof. reflexivity. Qed.
Print Assumptions C33_overwrite_partial.

(** A successful write of any length: of bytes that go to the same place, the last one counts. *)
Theorem C33_overwrite_any : forall o a data o', addr24 a -> overwrite_write o a data = (o', Ok tt) ->
  let maps k off := snes_to_rom (same_bank_plus a k) (ov_mapping o) = Ok off in
  let n := Z.of_nat (List.length data) in
  (forall k d off, nth_byte data k = Some d -> maps k off ->
     (forall k', k < k' < n -> ~ maps k' off) -> nth_byte (ov_data o') off = Some d) /\
  (forall off, (forall k, 0 <= k < n -> ~ maps k off) ->
     nth_byte (ov_data o') off = nth_byte (ov_data o) off).
Proof. exact overwrite_any. Qed.
Example C33_overwrite_any_case :
  overwrite_write (Overwriter HiRom [1; 2; 3]) 0xc00000 [8; 9] = (Overwriter HiRom [8; 9; 3], Ok tt).
Proof. vm_compute. reflexivity. Qed.
Print Assumptions C33_overwrite_any.

(** It writes outside the image exactly when it reaches the offset equal to the image size. *)
Theorem C33_overwrite_refuted : forall o a data, addr24 a ->
  let size := Z.of_nat (List.length (ov_data o)) in
  (exists o' u, overwrite_write o a data = (o', UB u)) <->
  (exists k, 0 <= k < Z.of_nat (List.length data) /\
     snes_to_rom (same_bank_plus a k) (ov_mapping o) = Ok size /\
     forall k', 0 <= k' < k -> exists off,
       snes_to_rom (same_bank_plus a k') (ov_mapping o) = Ok off /\ off < size).
Proof. exact overwrite_ub. Qed.
Example C33_overwrite_refuted_case :
  overwrite_write (Overwriter HiRom [1; 2; 3]) 0xc00002 [8; 9]
  = (Overwriter HiRom [1; 2; 8], UB UB_oob).
Proof. reflexivity. Qed.
Print Assumptions C33_overwrite_refuted.

(** No overwriting sink can be constructed at all: its constructor dereferences a pointer it
    has already moved from. *)
Theorem C33_construction_refuted : forall r, overwriter_create r = UB UB_null.
Proof. exact overwriter_never. Qed.
Print Assumptions C33_construction_refuted.

(** C42.  Loading a ROM file: the copier header is dropped, the mapping is decided by which
    of the two header positions holds a valid checksum, and nothing else is accepted; only a
    file holding a copier header and nothing more is undefined behaviour. *)
Theorem C42_load : forall file,
  (forall r, load_rom file = Ok r <->
     exists data, payload file data /\ rom_data r = data /\ 2 ^ 16 <= Z.of_nat (List.length data) /\
       match rom_mapping r with
       | LoRom => header_at data 0x7fb0 /\ ~ header_at data 0xffb0
       | HiRom => ~ header_at data 0x7fb0 /\ header_at data 0xffb0 /\
                  Z.of_nat (List.length data) < 2 ^ 22
       | ExHiRom => ~ header_at data 0x7fb0 /\ header_at data 0xffb0 /\
                  2 ^ 22 <= Z.of_nat (List.length data)
       end) /\
  ((exists u, load_rom file = UB u) <-> List.length file = 512%nat) /\
  load_rom file <> OutOfFuel.
Proof. exact load_exact. Qed.
Example C42_load_case :
  exists file, match load_rom file with Ok r => rom_mapping r = LoRom | _ => False end.
Proof. exists load_example. vm_compute. reflexivity. Qed.
Print Assumptions C42_load.
