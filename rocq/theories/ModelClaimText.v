(** The message about bytes written twice in a module. *)
From Verif Require Import Base ModelAddress ModelRanges ModelTools ModelLocation ModelRomText ModelParseText ModelFlagText.
Open Scope string_scope.
Open Scope Z_scope.

(** nsasm/module.cc:344-348: the bytes owned afterwards. *)
Definition t_claim (owned : list chunk) (address size : Z) : pres (list chunk) :=
  match claim_bytes owned address size with
  | Ok (true, owned') => POk owned'
  | Ok (false, _) => err_here E_overlap ("Second write to same address " ++ address_to_string address ++ " in module")%string
  | Err e => err_here e ""
  | UB u => PUB u
  | OutOfFuel => PFuel
  end.
