(** Cartridge memory maps, independent of the source. *)
From Verif Require Import Base ModelRom SpecArith.

(** Banks $7E and $7F are work RAM; below $8000, banks $00-$3F and $80-$BF are not cartridge. *)
Definition cart_address (a : Z) : Prop :=
  bank_of a <> 0x7e /\ bank_of a <> 0x7f /\
  (2 ^ 15 <= offset_of a \/ (0x40 <= bank_of a < 0x80 \/ 0xc0 <= bank_of a)).

(** The documented ROM offset of an address: LoROM takes the upper half of each bank, HiROM
    takes whole banks, ExHiROM is HiROM with inverted address bit 23 as bit 22. *)
Inductive rom_offset : mapping -> Z -> Z -> Prop :=
| ro_lo : forall a, cart_address a -> 2 ^ 15 <= offset_of a ->
    rom_offset LoRom a ((bank_of a mod 0x80) * 2 ^ 15 + (offset_of a - 2 ^ 15))
| ro_hi : forall a, cart_address a ->
    rom_offset HiRom a ((bank_of a mod 0x40) * 2 ^ 16 + offset_of a)
| ro_ex : forall a, cart_address a ->
    rom_offset ExHiRom a ((bank_of a mod 0x40) * 2 ^ 16 + offset_of a
                          + if a <? 2 ^ 23 then 2 ^ 22 else 0).

(** Byte [i] of a list. *)
Definition nth_byte (l : list Z) (i : Z) : option Z :=
  if (0 <=? i) && (i <? Z.of_nat (List.length l)) then Some (nth (Z.to_nat i) l 0) else None.

(** The byte of a ROM at an address, under the address mapping of property C31. *)
Definition in_rom (r : rom) (a b : Z) : Prop :=
  exists off, snes_to_rom a (rom_mapping r) = Ok off /\ nth_byte (rom_data r) off = Some b.

(** The part of a file after an optional 512-byte copier header. *)
Definition payload (file data : list Z) : Prop :=
  exists header, file = header ++ data /\
    (List.length header = 0 \/ List.length header = 512)%nat /\
    Z.of_nat (List.length data) mod 0x1000 = 0.

(** A cartridge header at [base]: the checksum and its complement agree. *)
Definition header_at (data : list Z) (base : Z) : Prop :=
  exists c0 c1 k0 k1,
    nth_byte data (base + 0x2c) = Some c0 /\ nth_byte data (base + 0x2d) = Some c1 /\
    nth_byte data (base + 0x2e) = Some k0 /\ nth_byte data (base + 0x2f) = Some k1 /\
    Z.lxor c0 k0 = 0xff /\ Z.lxor c1 k1 = 0xff.
