(** What a whole-program test of the project is about: the bytes a program puts into memory. *)
From Verif Require Import Base SpecArith.
Open Scope list_scope.
Open Scope Z_scope.

(** The addresses of [n] bytes laid out from [a], which is taken modulo the 16 megabytes of
    memory; they stay in their bank. *)
Definition spread (a : Z) (n : nat) : list Z := map (fun k => same_bank_plus (a mod 2 ^ 24) (Z.of_nat k)) (seq 0 n).
(** The bytes laid out by a list of addresses and data: each address with its byte. *)
Definition laid_out (ds : list (Z * list Z)) : list (Z * Z) :=
  flat_map (fun d => combine (spread (fst d) (List.length (snd d))) (snd d)) ds.
(** No two of them are in the same place. *)
Definition apart (ds : list (Z * list Z)) : Prop := NoDup (map fst (laid_out ds)).
(** The expected bytes are at addresses that exist; one past the end is allowed. *)
Definition in_memory (ds : list (Z * list Z)) : Prop := Forall (fun d => 0 <= fst d <= 2 ^ 24) ds.
