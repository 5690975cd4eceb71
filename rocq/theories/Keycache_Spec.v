(** What the key cache promises, in terms of what its users see. *)
From Verif Require Import Base Dhkey_Model Dhkey_Spec Keycache_Model.

(** ** Lists of keys *)
Definition distance_to (target k : key) : Z := kval (np_dhkey_distance k target).
Definition prefix_with (target k : key) : nat := common_prefix (np_dhkey_str target) (np_dhkey_str k).

(** ** The cache as a map *)
(** The calls of its users; [Unref]: a caller gives a reference back; [Check]: the periodic job *)
Inductive call := FindOrCreate (k : key) | Find (k : key) | Exists (k : key) | Remove (k : key) | GetAll | Unref (o : Z) | Check.
Inductive answer := Obj (o : option Z) | Bool (b : bool) | Objs (l : list (key * Z)) | Keys (l : list key) | Done.

Definition call_key (x : call) : option key :=
  match x with FindOrCreate k | Find k | Exists k | Remove k => Some k | _ => None end.

(** The calls run by the model *)
Definition perform (c : cache) (x : call) : outcome (cache * answer) :=
  match x with
  | FindOrCreate k => obind (np_keycache_find_or_create c k) (fun r => Ok (fst r, Obj (Some (snd r))))
  | Find k => let r := np_keycache_find c k in Ok (fst r, Obj (snd r))
  | Exists k => Ok (c, Bool (np_keycache_exists c k))
  | Remove k => obind (np_keycache_remove c k) (fun r => Ok (fst r, Obj (snd r)))
  | GetAll => let r := np_keycache_get_all c in Ok (fst r, Objs (snd r))
  | Unref o => Ok (mkCache (entries c) (ref o (-1) (refs c)) (fresh c) (check_from c), Done)
  | Check => let r := np_keycache_exists_state c in Ok (fst r, Keys (snd r))
  end.
Fixpoint performs (c : cache) (xs : list call) : outcome (cache * list answer) :=
  match xs with
  | [] => Ok (c, [])
  | x :: xs' => obind (perform c x) (fun r => obind (performs (fst r) xs') (fun r' => Ok (fst r', snd r :: snd r')))
  end.

(** A map from ids to objects: the state after a history of calls and answers *)
Fixpoint bound (h : list (call * answer)) (m : key -> option Z) : key -> option Z :=
  match h with
  | [] => m
  | (FindOrCreate k, Obj (Some o)) :: h' => bound h' (fun x => if list_eq_dec Z.eq_dec x k then Some o else m x)
  | (Remove k, _) :: h' => bound h' (fun x => if list_eq_dec Z.eq_dec x k then None else m x)
  | _ :: h' => bound h' m
  end.
(** Whether an answer is right for the map [m]; [known] are the objects handed out before *)
Definition right (m : key -> option Z) (known : Z -> Prop) (x : call) (a : answer) : Prop :=
  match x, a with
  | FindOrCreate k, Obj (Some o) => m k = Some o \/ m k = None /\ ~ known o
  | Find k, Obj o => o = m k
  | Exists k, Bool b => b = true <-> m k <> None
  | Remove k, Obj o => o = m k
  | GetAll, Objs l => (forall k o, In (k, o) l <-> m k = Some o) /\ StronglySorted (fun a b => kval (fst a) < kval (fst b)) l
  | Unref _, Done => True
  | Check, Keys l => forall k, In k l -> m k <> None
  | _, _ => False
  end.
Fixpoint all_right (h : list (call * answer)) (m : key -> option Z) (known : Z -> Prop) : Prop :=
  match h with
  | [] => True
  | (x, a) :: h' => right m known x a /\ all_right h' (bound [(x, a)] m) (fun o => known o \/ a = Obj (Some o))
  end.

(** References: those the users of the cache got and gave back *)
Definition got (o : Z) (xa : call * answer) : Z :=
  match xa with
  | (FindOrCreate _, Obj (Some p)) | (Find _, Obj (Some p)) => if p =? o then 1 else 0
  | (GetAll, Objs l) => Z.of_nat (length (filter (fun e => snd e =? o) l))
  | (Unref p, _) => if p =? o then -1 else 0
  | _ => 0
  end.
Definition held (o : Z) (h : list (call * answer)) : Z := fold_right (fun xa s => got o xa + s) 0 h.

(** ** The periodic job: the keys it takes up in [n] runs in a row, while the cache does not change *)
Fixpoint check_runs (n : nat) (c : cache) : list key :=
  match n with
  | O => []
  | S n' => let r := np_keycache_exists_state c in snd r ++ check_runs n' (fst r)
  end.
