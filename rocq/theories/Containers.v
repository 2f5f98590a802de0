(** Models of the C++ standard containers used by the extension module.
    Only the operations that the code calls are defined. *)
From Coq Require Import ZArith List Bool.
Import ListNotations.
Open Scope Z_scope.

(** [std::map<int,T>]: entries in strictly increasing key order. *)
Definition imap (T : Type) := list (Z * T).

(** [std::map::insert], index_table.cpp:145: an existing key keeps its old value. *)
Fixpoint map_insert {T} (k : Z) (v : T) (m : imap T) : imap T :=
  match m with
  | [] => [(k, v)]
  | (k', v') :: m' =>
      if k <? k' then (k, v) :: m
      else if k =? k' then m
      else (k', v') :: map_insert k v m'
  end.

(** [m[k] = v], index_table.cpp:46: an existing key is overwritten. *)
Fixpoint map_assign {T} (k : Z) (v : T) (m : imap T) : imap T :=
  match m with
  | [] => [(k, v)]
  | (k', v') :: m' =>
      if k <? k' then (k, v) :: m
      else if k =? k' then (k, v) :: m'
      else (k', v') :: map_assign k v m'
  end.

(** [std::set<int>::insert], py_module.cpp:79. *)
Fixpoint set_insert (k : Z) (s : list Z) : list Z :=
  match s with
  | [] => [k]
  | k' :: s' =>
      if k <? k' then k :: s
      else if k =? k' then s
      else k' :: set_insert k s'
  end.

(** [std::multimap<double,int>]: entries in non-decreasing key order, a new entry goes
    after the entries with an equal key (index_table.cpp:12,14). *)
Definition multimap := list (Z * nat).

Fixpoint mm_insert (k : Z) (v : nat) (m : multimap) : multimap :=
  match m with
  | [] => [(k, v)]
  | (k', v') :: m' =>
      if k <? k' then (k, v) :: m else (k', v') :: mm_insert k v m'
  end.

(** [std::multimap::lower_bound], as the position of the first entry whose key is not less
    than [k] (index_table.cpp:102,104). *)
Fixpoint lower_bound (m : multimap) (k : Z) : nat :=
  match m with
  | [] => 0%nat
  | (k', _) :: m' => if k' <? k then S (lower_bound m' k) else 0%nat
  end.

(** The entries visited by [for(it = low; it != high; ++it)].  If [high] is before [low]
    the C++ loop runs off the end of the container (undefined behaviour): [None]. *)
Definition iter_range (m : multimap) (low high : nat) : option multimap :=
  if Nat.ltb high low then None else Some (firstn (high - low) (skipn low m)).

(** Conversion of a [long long] to [int] (index_table.cpp:145, py_module.cpp:79):
    reduction modulo 2^32 to the signed range. *)
Definition to_int32 (z : Z) : Z := (z + 2 ^ 31) mod 2 ^ 32 - 2 ^ 31.
