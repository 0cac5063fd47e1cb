(** std::map with integer keys: an association list sorted by strictly increasing key. *)
From Verif Require Import Base.

Definition omap (A : Type) := list (Z * A).

(** std::map::find. *)
Fixpoint om_find {A} (k : Z) (m : omap A) : option A :=
  match m with
  | [] => None
  | (j, v) :: m' => if j =? k then Some v else om_find k m'
  end.

(** m[k] = v: replace the value at [k], or insert it at its sorted position. *)
Fixpoint om_set {A} (k : Z) (v : A) (m : omap A) : omap A :=
  match m with
  | [] => [(k, v)]
  | (j, w) :: m' =>
      if j <? k then (j, w) :: om_set k v m'
      else if j =? k then (k, v) :: m'
      else (k, v) :: m
  end.

(** The find / insert / merge idiom used for worklists and target maps, e.g.
    nsasm/module.cc:179-187, nsasm/disassemble.cc:58-66. *)
Definition om_merge {A} (mrg : A -> A -> A) (k : Z) (v : A) (m : omap A) : omap A :=
  match om_find k m with
  | None => om_set k v m
  | Some old => om_set k (mrg old v) m
  end.

(** map.insert of a single pair: an existing entry is kept. *)
Definition om_insert {A} (k : Z) (v : A) (m : omap A) : omap A :=
  match om_find k m with None => om_set k v m | Some _ => m end.

Definition om_mem {A} (k : Z) (m : omap A) : bool :=
  match om_find k m with Some _ => true | None => false end.

(** Indexing a vector with an int. *)
Definition znth {A} (l : list A) (i : Z) : option A :=
  if i <? 0 then None else nth_error l (Z.to_nat i).

(** Assignment to one element of a vector (no effect outside its bounds). *)
Fixpoint set_nth {A} (i : nat) (x : A) (l : list A) : list A :=
  match l, i with
  | [], _ => []
  | _ :: l', O => x :: l'
  | y :: l', S i' => y :: set_nth i' x l'
  end.
Definition zset {A} (i : Z) (x : A) (l : list A) : list A :=
  if i <? 0 then l else set_nth (Z.to_nat i) x l.

Definition zlen {A} (l : list A) : Z := Z.of_nat (List.length l).
