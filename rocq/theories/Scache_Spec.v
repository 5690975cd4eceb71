(** A map that keeps the first value written for a key. *)
From Verif Require Import Base.

Inductive cache_op (V : Type) := CGet (k : list Z) | CAdd (k : list Z) (v : V).
Arguments CGet {V}. Arguments CAdd {V}.
Inductive cache_answer (V : Type) := RGet (v : option V) | RAdd (accepted : bool).
Arguments RGet {V}. Arguments RAdd {V}.

(** A write-once map: [m k] is the stored value. *)
Definition wmap (V : Type) := list Z -> option V.
Definition wadd {V} (m : wmap V) (k : list Z) (v : V) : wmap V :=
  fun k' => if list_eq_dec Z.eq_dec k' k then Some v else m k'.
Inductive cache_run {V} : wmap V -> list (cache_op V) -> list (cache_answer V) -> wmap V -> Prop :=
| cr_nil m : cache_run m [] [] m
| cr_get m k os rs m' : cache_run m os rs m' -> cache_run m (CGet k :: os) (RGet (m k) :: rs) m'
| cr_add_new m k v os rs m' : m k = None -> cache_run (wadd m k v) os rs m' ->
    cache_run m (CAdd k v :: os) (RAdd true :: rs) m'
| cr_add_old m k v w os rs m' : m k = Some w -> cache_run m os rs m' ->
    cache_run m (CAdd k v :: os) (RAdd false :: rs) m'.
