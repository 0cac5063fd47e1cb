(** How an output sink may take part in assembling. *)
From Verif Require Import Base ModelNumeric ModelState ModelInstr ModelStatement ModelModule ModelAssembler.
Open Scope list_scope.
Open Scope Z_scope.

(** A sink that takes every write. *)
Definition takes_all : sink := fun _ _ => Ok tt.
(** The writes [todo] are offered, one after the other, to a sink that has taken [done]: what
    it has taken in the end, and its answer to the last one offered. *)
Fixpoint offer (sk : sink) (done todo : list write) : list write * res unit :=
  match todo with
  | [] => (done, Ok tt)
  | w :: todo' =>
      match sk done w with
      | Ok _ => offer sk (done ++ [w]) todo'
      | r => (done, r)
      end
  end.
(** Work that comes to an end with [r], unless the sink ended it. *)
Definition unless_ended {A} (x : list write * res unit) (r : res A) : wres A :=
  match x with
  | (ws, Ok _) => (ws, r)
  | (ws, Err e) => (ws, Err e)
  | (ws, UB u) => (ws, UB u)
  | (ws, OutOfFuel) => (ws, OutOfFuel)
  end.
