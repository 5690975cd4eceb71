(** What routing table and leafset promise. *)
From Verif Require Import Base Dhkey_Model Dhkey_Spec Keycache_Model Keycache_Spec Route_Model.

(** ** Histories *)
(** Calls into the routing module, in any order and for any node *)
Inductive event := Update (n : node) (joined : bool) (lat : Z -> Z) | LeafUpdate (n : node) (joined : bool).
Definition event_node (e : event) : node := match e with Update n _ _ => n | LeafUpdate n _ => n end.
Definition run_event (r : route) (e : event) : outcome route :=
  match e with
  | Update n j lat => obind (np_route_update r n j lat) (fun p => Ok (fst (fst p)))
  | LeafUpdate n j => obind (np_route_leafset_update r n j) (fun p => Ok (fst (fst p)))
  end.
Fixpoint run_events (r : route) (es : list event) : outcome route :=
  match es with [] => Ok r | e :: es' => obind (run_event r e) (fun r' => run_events r' es') end.

(** Nodes coming and going, as the handlers of the nodes report it *)
Inductive move := EnterTable (n : node) (lat : Z -> Z) | LeaveTable (n : node) (lat : Z -> Z) | EnterLeafset (n : node) | LeaveLeafset (n : node).
Definition move_node (m : move) : node := match m with EnterTable n _ | LeaveTable n _ | EnterLeafset n | LeaveLeafset n => n end.
Definition run_move (h : hood) (m : move) : outcome hood :=
  match m with
  | EnterTable n lat => node_enters_table h n lat
  | LeaveTable n lat => node_leaves_table h n lat
  | EnterLeafset n => node_enters_leafset h n
  | LeaveLeafset n => node_leaves_leafset h n
  end.
Fixpoint run_moves (h : hood) (ms : list move) : outcome hood :=
  match ms with [] => Ok h | m :: ms' => obind (run_move h m) (fun h' => run_moves h' ms') end.
Definition new_hood (me : key) (size : Z) : hood := mkHood (np_route_init me size) (fun _ => false) (fun _ => false).

(** The same under all schedules *)
Definition choice_node (c : choice) : list node := match c with CEnter n | CLeave n => [n] | CGo _ _ => [] end.
Fixpoint schedule (s : sched) (cs : list choice) : outcome sched :=
  match cs with [] => Ok s | c :: cs' => obind (sched_step s c) (fun s' => schedule s' cs') end.
Definition new_sched (me : key) (size : Z) : sched := mkSched (np_route_init me size) (fun _ => false) [].

(** Nodes have keys of the proper form, and there is one object per key (C51) *)
Definition proper (ns : list node) : Prop :=
  Forall (fun n => wf_key (fst n)) ns /\ (forall a b, In a ns -> In b ns -> (fst a = fst b <-> snd a = snd b)).

(** How often an object is in a list *)
Definition times (o : Z) (l : list node) : Z := Z.of_nat (count_occ Z.eq_dec (map snd l) o).

(** ** The table *)
(** The number of leading hexadecimal digits that two ids share, and a digit *)
Definition shared (a b : key) : nat := common_prefix (np_dhkey_str a) (np_dhkey_str b).
Definition digit (k : key) (i : nat) : Z := nth i (np_dhkey_str k) 0.
(** A neighbour that competes with [k] for the same places: both share the same number of digits with the own id, and have
    the same next digit *)
Definition rival (me k : key) (x : node) : bool :=
  (shared me (fst x) =? shared me k)%nat && (digit (fst x) (shared me (fst x)) =? digit k (shared me k)).

(** The difference of latencies that counts: pi milliseconds *)
Definition noticeable : Z := 31415926535.
(** What an update does to the list [T] of the entries of the table; [d] and [a] are reported as deleted and added.  There
    are three places for rivals. *)
Inductive table_effect (me : key) (lat : Z -> Z) (n : node) : bool -> list node -> list node -> option node -> option node -> Prop :=
| TOwn j T : fst n = me -> table_effect me lat n j T T None None
| TPresent T x : In x T -> fst x = fst n -> table_effect me lat n true T T None None
| TFree T T' : (length (filter (rival me (fst n)) T) < 3)%nat -> Permutation T' (n :: T) -> table_effect me lat n true T T' None (Some n)
| TReplace T T' x rest : length (filter (rival me (fst n)) T) = 3%nat -> In x (filter (rival me (fst n)) T) -> fst x <> fst n ->
    (forall y, In y (filter (rival me (fst n)) T) -> lat (snd y) <= lat (snd x)) -> noticeable < lat (snd x) - lat (snd n) ->
    Permutation T (x :: rest) -> Permutation T' (n :: rest) -> table_effect me lat n true T T' (Some x) (Some n)
| TFull T : length (filter (rival me (fst n)) T) = 3%nat ->
    (forall y, In y (filter (rival me (fst n)) T) -> fst y <> fst n /\ lat (snd y) - lat (snd n) <= noticeable) ->
    table_effect me lat n true T T None None
| TLeave T T' x rest : Permutation T (x :: rest) -> fst x = fst n -> Permutation T' rest -> table_effect me lat n false T T' (Some n) None
| TGone T : (forall x, In x T -> fst x <> fst n) -> table_effect me lat n false T T None None.

(** ** The leafset *)
(** The half after the own id: from the own id clockwise up to the point opposite to it, both included *)
Definition in_right_half (me k : key) : Prop :=
  k = me \/ k = np_dhkey_add me dhkey_half \/ inside_arc (kval me) (kval (np_dhkey_add me dhkey_half)) (kval k).
Definition sorted_by_distance (me : key) (l : list node) : Prop :=
  StronglySorted (fun x y => distance_to me (fst x) <= distance_to me (fst y)) l.

(** What the arrival of [n] does to its half [H]; [a] and [d] are reported as added and deleted *)
Inductive half_effect (me : key) (size : Z) (n : node) (bound : key -> Prop) (H H' : list node) : option node -> option node -> Prop :=
| HRoom : Z.of_nat (length H) < size -> Permutation H' (n :: H) -> half_effect me size n bound H H' None (Some n)
| HDisplace x rest : Z.of_nat (length H) = size -> Permutation H (x :: rest) -> Permutation H' (n :: rest) ->
    (forall y, In y H -> distance_to me (fst y) <= distance_to me (fst x)) -> distance_to me (fst n) <= distance_to me (fst x) ->
    half_effect me size n bound H H' (Some x) (Some n)
| HFar : Z.of_nat (length H) = size -> Permutation H' H -> (forall y, In y H -> distance_to me (fst y) <= distance_to me (fst n)) ->
    half_effect me size n bound H H' None None
| HOutside : Z.of_nat (length H) = size -> H' = H -> ~ bound (fst n) -> half_effect me size n bound H H' None None.
(** The arc from the own id to the farthest node of the half *)
Definition farthest (me : key) (l : list node) : key := fst (last l (me, 0)).
Definition right_bound (me : key) (R : list node) (k : key) : Prop := inside_arc (kval me) (kval (farthest me R)) (kval k).
Definition left_bound (me : key) (L : list node) (k : key) : Prop := inside_arc (kval (farthest me L)) (kval me) (kval k).
(** What a call does to the halves [L] and [R] *)
Inductive leafset_effect (me : key) (size : Z) (n : node) (L R : list node) : bool -> list node -> list node -> option node -> option node -> Prop :=
| LOwn j : fst n = me -> leafset_effect me size n L R j L R None None
| LPresent x : In x (L ++ R) -> fst x = fst n -> leafset_effect me size n L R true L R None None
| LRight R' d a : ~ In (fst n) (map fst (L ++ R)) -> in_right_half me (fst n) -> half_effect me size n (right_bound me R) R R' d a ->
    leafset_effect me size n L R true L R' d a
| LLeft L' d a : ~ In (fst n) (map fst (L ++ R)) -> ~ in_right_half me (fst n) -> half_effect me size n (left_bound me L) L L' d a ->
    leafset_effect me size n L R true L' R d a
| LLeave L' R' x : fst x = fst n -> Permutation (L ++ R) (x :: L' ++ R') -> leafset_effect me size n L R false L' R' (Some n) None
| LGone : ~ In (fst n) (map fst (L ++ R)) -> leafset_effect me size n L R false L R None None.

(** ** The next hop *)
(** A link that is not bad: more than a quarter of the pings are answered *)
Definition usable (suc : Z -> Z) (x : node) : Prop := 2500000000000 < suc (snd x).
(** The part of the ring that the leafset covers *)
Definition covered (me : key) (L R : list node) (k : key) : Prop :=
  k = farthest me L \/ k = farthest me R \/ inside_arc (kval (farthest me L)) (kval (farthest me R)) (kval k).
(** The node shares more digits with [k] than the own id *)
Definition onward (me k : key) (x : node) : Prop := (shared me k < shared (fst x) k)%nat.
(** Lost pings and latency together *)
Definition cost (lat suc : Z -> Z) (x : node) : Z := 10000000000000 - suc (snd x) + lat (snd x).
(** [x] is better than [y]: it shares more digits with [k], or the same number and is at most as far away *)
Definition longer_or_closer (k : key) (x y : node) : Prop :=
  (shared k (fst x) > shared k (fst y))%nat \/ shared k (fst x) = shared k (fst y) /\ distance_to k (fst x) <= distance_to k (fst y).
(** The answer to a search for the way to [k], with the table [T] and the leafset [L], [R] *)
Inductive next_hop (me k : key) (count : Z) (lat suc : Z -> Z) (T L R : list node) : list node -> Prop :=
| NLeafset x : count = 1 -> covered me L R k -> In x (L ++ R) -> (forall y, In y (L ++ R) -> distance_to k (fst x) <= distance_to k (fst y)) ->
    next_hop me k count lat suc T L R [x]
| NEmptyLeafset : count = 1 -> covered me L R k -> L ++ R = [] -> next_hop me k count lat suc T L R []
| NOnward x y : ~ (count = 1 /\ covered me L R k) -> 1 <= count -> In y T -> usable suc y -> onward me k y ->
    In x T -> onward me k x -> (forall z, In z T -> onward me k z -> cost lat suc x <= cost lat suc z) ->
    next_hop me k count lat suc T L R [x]
| NSelf : count = 0 -> next_hop me k count lat suc T L R [(me, -1)]
| NRow x : ~ (count = 1 /\ covered me L R k) -> 1 <= count -> (forall y, In y T -> onward me k y -> ~ usable suc y) ->
    In x T -> usable suc x -> (shared me (fst x) <= shared me k)%nat ->
    (forall y, In y T -> usable suc y -> (shared me (fst y) <= shared me k)%nat -> (shared me (fst y) <= shared me (fst x))%nat) ->
    (forall y, In y T -> usable suc y -> shared me (fst y) = shared me (fst x) ->
       if count =? 1 then distance_to k (fst x) <= distance_to k (fst y) else longer_or_closer k x y) ->
    next_hop me k count lat suc T L R [x]
| NNone : ~ (count = 1 /\ covered me L R k) -> 1 <= count ->
    (forall y, In y T -> usable suc y -> (shared me k < shared me (fst y))%nat) -> next_hop me k count lat suc T L R [].

(** ** Paths *)
(** A node [here], after any history of its table, sends a message for [k] on to [there], and it knows a usable node that
    shares more digits with [k] *)
Definition prefix_hop (k : key) (count : Z) (here there : key) : Prop :=
  exists size es ns r lat suc x y, wf_key here /\ proper ns /\ (forall e, In e es -> In (event_node e) ns) /\
    run_events (np_route_init here size) es = Ok r /\ np_route_lookup r k count lat suc = Ok [x] /\ fst x = there /\
    In y (np_route_get_table r) /\ usable suc y /\ onward here k y /\ ~ (count = 1 /\ covered here (left r) (right r) k).
Inductive path (k : key) (count : Z) : key -> list key -> Prop :=
| PEnd a : path k count a []
| PHop a b p : a <> k -> prefix_hop k count a b -> path k count b p -> path k count a (b :: p).
