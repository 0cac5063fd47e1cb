(** What the errors of an image should say. *)
From Verif Require Import Base ModelRom ModelLocation ModelRomText SpecArith SpecRom.
Open Scope string_scope.
Open Scope Z_scope.

(** Forgetting texts and locations. *)
Definition forget {A} (r : tres A) : res A := match r with TOk a => Ok a | TErr e => Err (re_kind e) | TUB u => UB u end.

(** Why an address is not one of the image: work RAM; the lower halves of the banks $00-$3F and $80-$BF; the other lower halves,
    under LoROM. *)
Inductive complaint : mapping -> Z -> string -> Prop :=
| co_wram : forall m a, bank_of a = 0x7e \/ bank_of a = 0x7f -> complaint m a "Address in WRAM"
| co_system : forall m a, offset_of a < 2 ^ 15 -> bank_of a < 0x40 \/ 0x80 <= bank_of a < 0xc0 -> complaint m a "Address in non-CART memory"
| co_lorom : forall a, offset_of a < 2 ^ 15 -> 0x40 <= bank_of a < 0x7e \/ 0xc0 <= bank_of a -> complaint LoRom a "Invalid LoRom ROM address".

(** The error names byte [i] of a read at [a], and says what is wrong with it. *)
Definition blames (path : string) (r : rom) (a : Z) (e : rerror) (i : Z) : Prop :=
  re_loc e = Loc path (AtAddress (same_bank_plus a i)) /\
  ((re_kind e = E_rom_address /\ complaint (rom_mapping r) (same_bank_plus a i) (re_text e)) \/
   (re_kind e = E_rom_range /\ re_text e = "Address past end of ROM" /\
    exists off, snes_to_rom (same_bank_plus a i) (rom_mapping r) = Ok off /\ nth_byte (rom_data r) off = None)).
