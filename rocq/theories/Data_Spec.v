(** What a data block is: a store of bounded size, entries in the order in which their keys first appeared. *)
From Verif Require Import Base Data_Model.

Definition store := list (list Z * datum).
Fixpoint put (k : list Z) (v : datum) (l : store) : store :=
  match l with
  | [] => [(k, v)]
  | (k', v') :: l' => if list_eq_dec Z.eq_dec k' k then (k, v) :: l' else (k', v') :: put k v l'
  end.
Fixpoint lookup (k : list Z) (l : store) : option datum :=
  match l with [] => None | (k', v) :: l' => if list_eq_dec Z.eq_dec k' k then Some v else lookup k l' end.
(** Header of 21 bytes and the encoded entries *)
Definition bytes_needed (l : store) : Z := 21 + fold_right (fun e s => Z.of_nat (length (encode (fst e) (snd e))) + s) 0 l.

(** A write succeeds if and only if there is room *)
Definition spec_set (n : Z) (l : store) (k : list Z) (v : datum) : rc * store :=
  if bytes_needed (put k v l) <=? n then (np_data_ok, put k v l) else (np_insufficient_memory, l).
Fixpoint spec_writes (n : Z) (ws : list (list Z * datum)) (l : store) : list rc * store :=
  match ws with
  | [] => ([], l)
  | (k, v) :: ws' => let (r, l') := spec_set n l k v in let (rs, l'') := spec_writes n ws' l' in (r :: rs, l'')
  end.

(** A sequence of writes to a block, with the return values *)
Fixpoint writes (ws : list (list Z * datum)) (b : list Z) : run (list rc * list Z) :=
  match ws with
  | [] => Done ([], b)
  | (k, v) :: ws' =>
      rbind (np_set_data b k v) (fun r => rbind (writes ws' (snd r)) (fun r' => Done (fst r :: fst r', snd r')))
  end.

(** The value of the last successful write to [k] *)
Fixpoint last_written (k : list Z) (ws : list (list Z * datum)) (rs : list rc) : option datum :=
  match ws, rs with
  | (k', v) :: ws', r :: rs' =>
      match last_written k ws' rs' with
      | Some w => Some w
      | None => match r with np_data_ok => if list_eq_dec Z.eq_dec k' k then Some v else None | _ => None end
      end
  | _, _ => None
  end.

(** Keys and values whose size is calculated correctly.  The buffer for keys has room for 254 characters. *)
Definition good_key (k : list Z) : Prop := (length k <= 254)%nat /\ length k <> 24%nat /\ Forall (fun c => 1 <= c <= 255) k.
Definition good_value (v : datum) : Prop :=
  match v with
  | DBin b | DStr b => length b <> 24%nat /\ Z.of_nat (length b) <= 65535
  | DInt z => -2147483648 < z <= 2147483647 /\ z <> 24 /\ z <> -256 /\ z <> -65536
  | DUint z => 0 <= z <= 4294967295 /\ z <> 24
  end.
Definition good_entry (e : list Z * datum) : Prop := good_key (fst e) /\ good_value (snd e).
Definition few_keys (ws : list (list Z * datum)) : Prop := Z.of_nat (length (nodup (list_eq_dec Z.eq_dec) (map fst ws))) <= 65535.

(** The callback over the entries *)
Fixpoint visit {S} (callback : S -> list Z -> datum -> S * bool) (l : store) (s : S) : rc * S :=
  match l with
  | [] => (np_data_ok, s)
  | (k, v) :: l' => let (s', go_on) := callback s k v in if go_on then visit callback l' s' else (np_invalid_arguments, s')
  end.

(** The entries of a block merged into another, until one does not fit *)
Fixpoint spec_merge (n : Z) (src dest : store) : rc * store :=
  match src with
  | [] => (np_data_ok, dest)
  | (k, v) :: src' => match spec_set n dest k v with (np_data_ok, dest') => spec_merge n src' dest' | r => r end
  end.
