(** What the generic tree promises: it is a finite map. *)
From Verif Require Import Base Dhkey_Model Tree_Model.

Definition ukey_eq_dec : forall a b : ukey, {a = b} + {a <> b}.
Proof. repeat decide equality. Defined.

(** The binding of a key after a history: insert only if there is none, replace always, delete, clear. *)
Definition change {V} (o : op (V := V)) (m : ukey -> option V) : ukey -> option V := fun k =>
  match o with
  | Insert u v => if ukey_eq_dec k u then match m k with Some w => Some w | None => Some v end else m k
  | Replace u v => if ukey_eq_dec k u then Some v else m k
  | Delete u => if ukey_eq_dec k u then None else m k
  | Clear => None
  end.
Fixpoint bindings {V} (h : list (op (V := V))) (m : ukey -> option V) : ukey -> option V :=
  match h with [] => m | o :: h' => bindings h' (change o m) end.
Definition no_bindings {V} : ukey -> option V := fun _ => None.

Definition op_key {V} (o : op (V := V)) : option ukey :=
  match o with Insert u _ | Replace u _ | Delete u => Some u | Clear => None end.

(** Keys of one kind.  Strings have no zero bytes and at most 255 bytes; doubles are numbers; integer keys lie in a
    window of 32768 consecutive values. *)
Inductive kind := Strings | Doubles | Dhkeys | Uuids | Ints (from : Z) | Ulongs (from : Z).
Definition of_kind (K : kind) (u : ukey) : Prop :=
  match K, u with
  | Strings, UStr s => Forall (fun b => 1 <= b <= 255) s /\ (length s <= 255)%nat
  | Doubles, UDbl (Some _) => True
  | Dhkeys, UDhkey k => wf_key k
  | Uuids, UUuid b => length b = 16%nat /\ Forall (fun x => 0 <= x <= 255) b
  | Ints lo, UInt i => lo <= i < lo + 32768
  | Ulongs lo, UUlong i => 0 <= i < 4294967296 /\ lo <= i < lo + 32768
  | _, _ => False
  end.

(** A history with keys of one kind *)
Definition keys_of_kind {V} (K : kind) (h : list (op (V := V))) : Prop :=
  Forall (fun o => forall u, op_key o = Some u -> of_kind K u) h.
