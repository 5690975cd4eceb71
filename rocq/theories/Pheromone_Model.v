(** Pheromone table: where data for a subject was seen coming from. Model of src/np_pheromones.c (257 buckets), and of the
    way a received pheromone message reaches it (src/np_dendrit.c:820-893).

    Simplified: the time stamp of an entry (double) is an integer; the probability (float) is the age times 256, as in
    [Bloom_Model]; the module lock is one flag: a call that finds it held never gets past it and is counted as [Abort]
    (the mutex is recursive, src/np_threads.c:107, so this is what every thread but the one that left it locked sees);
    [_count] (1 + the number of entries) and the entries [1 ..] of the array of 32 are a list; statistics counters and
    log output are left out. *)
From Verif Require Import Base Dhkey_Model Bloom_Model.

Definition zero_key : key := [0; 0; 0; 0; 0; 0; 0; 0].
(** src/np_pheromones.c:30-34 (struct np_pheromone_details_s) *)
Record detail := mkDetail { peer : key; ts : Z }.
(** include/np_pheromones.h: np_pheromone_t as stored in a bucket *)
Record pher := mkPher { filt : bloom; send : list detail; recv : list detail }.
(** np_pheromone_entry_t: [_pheromone[0]._subj_bloom], and the entries 1 .. [_count] - 1 *)
Record bucket := mkBucket { top : bloom; ents : list pher }.
Record table := mkTable { me : key; buckets : Z -> option bucket; held : bool }.
(** np_pheromone_t as an argument of _np_pheromone_inhale *)
Record scent := mkScent { subject : option key; subj_bloom : option bloom; pos : Z; sender : key; receiver : key }.

(** include/np_settings.h: NP_PHEROMONES_MAX_NEXTHOP_KEYS (__MAX_COL + __MAX_ENTRY) *)
Definition MAX_NEXTHOP_KEYS : Z := 16 + 3.
(** include/np_pheromones.h: [_pheromone[32]] *)
Definition MAX_PHEROMONES : Z := 32.
(** [pheromones[257]] *)
Definition BUCKETS : Z := 257.

Definition new_table (me : key) : table := mkTable me (fun _ => None) false.

(** src/np_pheromones.c:117-129 _np_pheromone_calc_table_position *)
Definition position (target : key) (find_sender : bool) : Z :=
  if find_sender then nth 0 target 0 mod BUCKETS + 1 else - (nth 0 target 0 mod BUCKETS) - 1.

(** the position of the last element that satisfies [f], as kept in [remove_pos] by the loops in lines 172-178, 203-209 *)
Fixpoint last_pos (f : detail -> bool) (l : list detail) (i : nat) (found : option nat) : option nat :=
  match l with [] => found | x :: r => last_pos f r (S i) (if f x then Some i else found) end.
(** include/util/np_list.h sll_delete *)
Definition delete_at (i : nat) (l : list detail) : list detail := firstn i l ++ skipn (S i) l.
(** src/np_pheromones.c:166-187 __np_remove_dhkey *)
Definition remove_dhkey (l : list detail) (k : key) : bool * list detail :=
  match last_pos (fun x => np_dhkey_equal (peer x) k) l 0 None with
  | Some i => (true, delete_at i l)
  | None => (false, l)
  end.
(** src/np_pheromones.c:189-214 __np_remove_oldest_dhkey: compares with the time stamp of the first element *)
Definition remove_oldest (l : list detail) : list detail :=
  match l with
  | [] => l
  | x :: _ => delete_at (match last_pos (fun y => ts y <? ts x) l 0 None with Some i => i | None => 0%nat end) l
  end.
(** src/np_pheromones.c:216-260 __np_insert_dhkey. The loop leaves [compare_result < 0] only if it ran to the end of the
    list, with [insert_pos] the last element *)
Fixpoint compare_all (me nd : key) (l : list detail) (c : Z) : Z :=
  match l with
  | [] => c
  | x :: r => let c' := np_dhkey_cmp nd (np_dhkey_distance me (peer x)) in if c' <? 0 then compare_all me nd r c' else c'
  end.
Definition insert_dhkey (me : key) (l : list detail) (k : key) (now : Z) : list detail :=
  let c := compare_all me (np_dhkey_distance me k) l 1 in
  if c <? 0 then l ++ [mkDetail k now] else if 0 <? c then mkDetail k now :: l else l.

(** src/np_pheromones.c:327-362 and 364-399: one list of an entry is brought up to date *)
Definition refresh (me : key) (b p : bloom) (l : list detail) (k : key) (now : Z) : outcome (bloom * list detail) :=
  let '(removed, l1) := remove_dhkey l k in
  obind (if removed then nbf_count_dec b else Ok b) (fun b1 =>
  let l2 := insert_dhkey me l1 k now in
  obind (if Z.of_nat (length l2) >? MAX_NEXTHOP_KEYS then obind (nbf_count_dec b1) (fun b2 => Ok (b2, remove_oldest l2)) else Ok (b1, l2)) (fun '(b3, l3) =>
  obind (nbf_union b3 p) (fun b4 => Ok (b4, l3)))).
(** src/np_pheromones.c:316-408: one entry of the bucket *)
Definition inhale_one (me : key) (s : scent) (p : bloom) (now : Z) (e : pher) : outcome (bool * pher) :=
  obind (nbf_intersect_test (filt e) p) (fun same =>
  if same then
    if (pos s <? 0) && negb (np_dhkey_equal (sender s) zero_key)
    then obind (refresh me (filt e) p (send e) (sender s) now) (fun '(b, l) => Ok (true, mkPher b l (recv e)))
    else if (0 <? pos s) && negb (np_dhkey_equal (receiver s) zero_key)
    then obind (refresh me (filt e) p (recv e) (receiver s) now) (fun '(b, l) => Ok (true, mkPher b (send e) l))
    else Ok (false, e)
  else Ok (false, e)).
(** src/np_pheromones.c:410-424: the union of all entries; the number of free items is set back to 64 *)
Definition into_top (t b : bloom) : outcome bloom :=
  if free_items t + free_items b <? 64 then Abort
  else obind (nbf_union t b) (fun t' => Ok (set_free t' 64)).
(** src/np_pheromones.c:312-440: the loop over the entries *)
Fixpoint inhale_all (me : key) (s : scent) (p : bloom) (now : Z) (t : bloom) (l : list pher) : outcome (bool * bloom * list pher) :=
  match l with
  | [] => Ok (false, t, [])
  | e :: r =>
    obind (inhale_one me s p now e) (fun '(u, e') =>
    obind (into_top t (filt e')) (fun t' =>
    obind (inhale_all me s p now t' r) (fun '(u', t2, r') => Ok (u || u', t2, e' :: r'))))
  end.
Definition put_bucket (tb : table) (i : Z) (b : bucket) : table :=
  mkTable (me tb) (fun j => if j =? i then Some b else buckets tb j) (held tb).
(** src/np_pheromones.c:262-508 _np_pheromone_inhale (release build: line 449 leaves the function with the lock held) *)
Definition inhale (tb : table) (s : scent) (now : Z) : outcome (table * bool) :=
  match (match subject s with
         | Some k => obind (nbf_add (match subj_bloom s with None => nbf_create | Some b => nbf_clear b end) k) (fun b => Ok (Some b))
         | None => Ok (subj_bloom s)
         end) with
  | Ok None => Ok (tb, false)
  | Ok (Some p) =>
    if pos s =? 0 then Abort
    else let index := Z.abs (pos s) - 1 in
    if negb (index <? BUCKETS) then Abort
    else if held tb then Abort
    else let b := match buckets tb index with Some b => b | None => mkBucket nbf_create [] end in
    obind (inhale_all (me tb) s p now (nbf_clear (top b)) (ents b)) (fun '(u, t, l) =>
    if negb (1 + Z.of_nat (length l) <? MAX_PHEROMONES)
    then Ok (mkTable (me tb) (buckets (put_bucket tb index (mkBucket t l))) true, false)
    else if u then Ok (put_bucket tb index (mkBucket t l), true)
    else if free_items t + free_items p <? 64 then Abort
    else obind (nbf_union t p) (fun t' =>
         if 64 + free_items p <? 64 then Abort
         else obind (nbf_union nbf_create p) (fun b' =>
         let e := if 0 <? pos s then mkPher b' [] (insert_dhkey (me tb) [] (receiver s) now)
                  else mkPher b' (insert_dhkey (me tb) [] (sender s) now) [] in
         Ok (put_bucket tb index (mkBucket t' (l ++ [e])), true))))
  | Abort => Abort
  | UB => UB
  end.
(** src/np_pheromones.c:131-164 _np_pheromone_inhale_target *)
Definition inhale_target (tb : table) (target source : key) (find_sender find_receiver : bool) (now : Z) : outcome (table * bool) :=
  obind (nbf_add nbf_create target) (fun p =>
  obind (inhale tb (mkScent None (Some p)
                     (if find_receiver then position target false else if find_sender then position target true else 0)
                     (if find_receiver then source else zero_key) (if find_sender then source else zero_key)) now)
    (fun '(tb', ret) => Ok (tb', (find_sender || find_receiver) && ret))).

(** src/np_pheromones.c:544-575: the peers of the entries that hold the key *)
Fixpoint collect (l : list pher) (k : key) (find_sender find_receiver : bool) : outcome (list key) :=
  match l with
  | [] => Ok []
  | e :: r =>
    obind (nbf_check (filt e) k) (fun yes =>
    obind (collect r k find_sender find_receiver) (fun ks =>
    Ok (if yes then map peer (if find_receiver then recv e else if find_sender then send e else []) ++ ks else ks)))
  end.
(** src/np_pheromones.c:510-593 _np_pheromone_snuffle: the keys appended to the result list, and the new probability *)
Definition snuffle (tb : table) (k : key) (prob : Z) (find_sender find_receiver : bool) : outcome (list key * Z) :=
  if held tb then Abort
  else match buckets tb (nth 0 k 0 mod BUCKETS) with
  | None => Ok ([], 0)
  | Some b =>
    obind (nbf_check (top b) k) (fun yes =>
    if yes then
      obind (nbf_heuristic (top b) k) (fun cur =>
      if prob <=? cur then obind (collect (ents b) k find_sender find_receiver) (fun ks => Ok (ks, cur))
      else Ok ([], cur))
    else Ok ([], 0))
  end.
(** src/np_pheromones.c:595-617 *)
Definition snuffle_receiver tb k prob := snuffle tb k prob false true.
Definition snuffle_sender tb k prob := snuffle tb k prob true false.

(** src/np_pheromones.c:689-702: lists with more than one element lose one *)
Definition thin (b : bloom) (l : list detail) : outcome (bloom * list detail) :=
  if Z.of_nat (length l) >? 1 then obind (nbf_count_dec b) (fun b' => Ok (b', remove_oldest l)) else Ok (b, l).
(** src/np_pheromones.c:634-715: [n] is the number of entries ([_count] - 1) when the loop gets here, [i] the index of the
    first of [l]. Removing an entry copies [_pheromone[j + 1]] down for every [j < _count] (lines 680-684): with 32
    entries this reads behind the array *)
Fixpoint exhale_all (t : bloom) (n : Z) (l : list pher) : outcome (list pher) :=
  match l with
  | [] => Ok []
  | e :: r =>
    obind (nbf_age_dec (filt e)) (fun b =>
    obind (nbf_intersect_age t b) (fun age =>
    if age =? 0 then if 1 + n <? MAX_PHEROMONES then exhale_all t (n - 1) r else UB
    else obind (thin b (recv e)) (fun '(b1, rl) =>
         obind (thin b1 (send e)) (fun '(b2, sl) =>
         obind (exhale_all t n r) (fun r' => Ok (mkPher b2 sl rl :: r'))))))
  end.
(** src/np_pheromones.c:619-719 _np_pheromone_exhale; [i] is the random number below 257 *)
Definition exhale (tb : table) (i : Z) : outcome table :=
  if held tb then Abort
  else match buckets tb i with
  | None => Ok tb
  | Some b =>
    obind (nbf_age_dec (top b)) (fun t =>
    obind (exhale_all t (Z.of_nat (length (ents b))) (ents b)) (fun l => Ok (put_bucket tb i (mkBucket t l))))
  end.

(** A pheromone message (src/np_dendrit.c:823-884): the filter sent by the peer, aged once for every hundredth of a second
    it travelled, is dropped when nothing is left of it, and inhaled with the neighbour it came from as source *)
Fixpoint fade (k : nat) (b : bloom) : outcome bloom := match k with O => Ok b | S k' => obind (nbf_age_dec b) (fade k') end.
Definition in_pheromone (tb : table) (ps : Z) (b : bloom) (steps : nat) (last_hop : key) (now : Z) : outcome (table * bool) :=
  obind (fade steps b) (fun p =>
  obind (nbf_intersect_age p p) (fun age =>
  if age =? 0 then Ok (tb, false)
  else if ps <? 0 then if -257 <=? ps then inhale tb (mkScent None (Some p) ps last_hop zero_key) now else Abort
  else if (0 <? ps) && (ps <=? 257) then inhale tb (mkScent None (Some p) ps zero_key last_hop) now else Abort)).
