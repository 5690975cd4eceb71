(** Messages that tell who wants or offers a subject (pheromone messages): how a node reads one and where it goes next.
    src/np_dendrit.c:797-935 _np_in_pheromone, src/np_axon.c:525-593 _np_out_pheromone, src/core/np_comp_alias.c:575-589 __is_msgpart_expired.
    Simplified: the clock does not move while a message is read; an entry of the body is its position (an integer key) and its filter, as
    _np_neuropil_bloom_deserialize leaves it; the key cache does not change while one of these functions runs; statistics, log output and
    reference counts are left out. *)
From Verif Require Import Base Dhkey_Model Keycache_Model Route_Model Uuid_Model Bloom_Model Pheromone_Model Data_Model Out_Model.
Open Scope Z_scope.

(** ** double: IEEE 754 binary64.  Every finite double is a multiple of 2^-1074; a value is the number of such units.
    Sums do not leave the range of doubles: one of the two numbers added here is below 2^32. *)
Definition second : Z := 2 ^ 1074.
(** the double nearest to the fraction [n]/[d] of units ([d] > 0): 53 significant bits, ties to even *)
Definition dl (n d : Z) : Z :=
  let k := Z.max 0 (Z.log2 (Z.abs n / d) - 52) in
  Z.sgn n * (round_even (Z.abs n) (d * 2 ^ k) * 2 ^ k).
Inductive double := Fin (units : Z) | PosInf | NegInf | NaN.
Definition dadd (x : double) (y : Z) : double := match x with Fin u => Fin (dl (u + y) 1) | _ => x end.
(** [x] < [y] and [y] < [x] for a finite [y] *)
Definition below (x : double) (y : Z) : bool := match x with Fin u => u <? y | NegInf => true | _ => false end.
(** include/np_settings.h:66 NP_PI; np_dendrit.c:829 NP_PI / 314 *)
Definition np_pi : Z := dl (31415926535 * second) 10000000000.
Definition delay_step : Z := dl np_pi 314.

(** np_comp_alias.c:575-589: now > tstamp + ttl; a part that is expired is dropped (671-679) *)
Definition part_expired (tstamp : double) (ttl now : Z) : bool := below (dadd tstamp (ttl * second)) now.

(** np_dendrit.c:824-830: the loop that ages the filter; [fuel]: rounds looked at *)
Fixpoint decay (fuel : nat) (delay : double) (now : Z) (b : bloom) : Data_Model.run bloom :=
  if below delay now then
    match fuel with
    | O => Hangs
    | S f => rbind (lift (nbf_age_dec b)) (fun b' => decay f (dadd delay delay_step) now b')
    end
  else Done b.

(** np_dendrit.c:816-886: the loop over the body; the table, the neighbours found, whether something was learned *)
Fixpoint sniff (fuel : nat) (audience last_hop : key) (tstamp : double) (now : Z) (tb : table) (l : list (Z * bloom))
  : Data_Model.run (table * list key * bool) :=
  match l with
  | [] => Done (tb, [], false)
  | (i, b) :: r =>
    rbind (decay fuel tstamp now b) (fun p =>
    rbind (lift (nbf_intersect_age p p)) (fun in_age =>
    if in_age =? 0 then sniff fuel audience last_hop tstamp now tb r
    else
      rbind (if i <? 0
             then if -257 <=? i
                  then rbind (lift (snuffle_receiver tb audience in_age)) (fun '(ks, _) => Done (ks, mkScent None (Some p) i last_hop zero_key))
                  else Aborts
             else if (0 <? i) && (i <=? 257)
                  then rbind (lift (snuffle_sender tb audience in_age)) (fun '(ks, _) => Done (ks, mkScent None (Some p) i zero_key last_hop))
                  else Aborts) (fun '(ks, s) =>
      rbind (lift (inhale tb s now)) (fun '(tb', u) =>
      rbind (sniff fuel audience last_hop tstamp now tb' r) (fun '(tb2, ks', u') => Done (tb2, ks ++ ks', u || u'))))))
  end.
(** np_dendrit.c:797-935 _np_in_pheromone: the table afterwards and the targets of the events for _np_out_pheromone.
    A body that cannot be read (805-807) is not part of the model. *)
Definition in_update (fuel : nat) (me audience last_hop : key) (tstamp : double) (now : Z) (tb : table) (l : list (Z * bloom))
  : Data_Model.run (table * list key) :=
  rbind (sniff fuel audience last_hop tstamp now tb l) (fun '(tb', ks, u) =>
  Done (tb', if u then audience :: filter (fun k => negb (np_dhkey_equal k last_hop) && negb (np_dhkey_equal k me)) ks else [])).

(** np_axon.c:525-593 _np_out_pheromone for an event with target [target]; [r]: routing table and leafset, [lat], [suc]: latency and success
    average of its nodes; [bucket]: the random number of _np_pheromone_exhale.  The list of keys is never empty when the count is above 0. *)
Definition out_pheromone (w : world) (r : route) (lat suc : Z -> Z) (target : key) (m : message) (bucket : Z)
  : Data_Model.run (bool * list copy * table) :=
  if negb (np_route_has_connection r) then Done (false, [], w_table w)
  else
    rbind (if np_dhkey_equal (m_audience m) target
           then rbind (lift (np_route_lookup r target 2 lat suc)) (fun tmp => Done (tmp, map fst (firstn 1 tmp)))
           else Done ([], [target])) (fun '(tmp, l) =>
    rbind (match tmp with
           | [] => if np_get_route_count r >? 0
                   then match sort_keys_cpm fst (np_route_get_table r) target with x :: _ => Done (l ++ [fst x]) | [] => Undef end
                   else Done l
           | _ => Done l
           end) (fun l =>
    let '(ret, cs) := match l with [] => (false, []) | _ => send_chunks w m target l end in
    rbind (lift (exhale (w_table w) bucket)) (fun tb => Done (ret, cs, tb)))).
