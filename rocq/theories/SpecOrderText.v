(** Results with messages, without them. *)
From Verif Require Import Base ModelLocation ModelRomText ModelParseText.
Definition untold {A} (r : pres A) : lres A :=
  match r with POk a => LOk a | PErr e => LErr (re_kind e) (re_loc e) | PUB u => LUB u | PFuel => LFuel end.
