(** The documented names of processor modes and what they mean. *)
From Verif Require Import Base ModelState.
Open Scope string_scope.

(** Fields: emulation bit, m, x, carry.  In native mode (e off) m8/m16 and x8/x16 fix the
    widths; nothing is ever said about the carry. *)
Definition documented_flags : list (string * flags) :=
  [("unk",    RawFlags B_unknown B_unknown B_unknown B_unknown);
   ("emu",    RawFlags B_on  B_on      B_on      B_unknown);
   ("native", RawFlags B_off B_unknown B_unknown B_unknown);
   ("m8",     RawFlags B_off B_on      B_unknown B_unknown);
   ("m16",    RawFlags B_off B_off     B_unknown B_unknown);
   ("x8",     RawFlags B_off B_unknown B_on      B_unknown);
   ("x16",    RawFlags B_off B_unknown B_off     B_unknown);
   ("m8x8",   RawFlags B_off B_on      B_on      B_unknown);
   ("m8x16",  RawFlags B_off B_on      B_off     B_unknown);
   ("m16x8",  RawFlags B_off B_off     B_on      B_unknown);
   ("m16x16", RawFlags B_off B_off     B_off     B_unknown)].
