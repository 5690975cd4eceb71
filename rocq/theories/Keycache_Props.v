(** C28, C51, C52: key lists and the key cache *)
From Verif Require Import Base Dhkey_Model Dhkey_Spec Dhkey_Proofs Rbtree_Model Rbtree_Spec Keycache_Model Keycache_Spec Keycache_Proofs.

(** ** C28 *)
(** The search gives a key of the list, and no key of the list is closer. *)
Theorem C28_closest : forall A (dh : A -> key) l target, wf_key target -> Forall (fun x => wf_key (dh x)) l -> l <> [] ->
  exists x, find_closest_key_to dh l target = Some x /\ In x l /\
    forall y, In y l -> distance_to target (dh x) <= distance_to target (dh y).
Proof.
  intros A dh l target Ht F N. destruct l as [|x l]; [contradiction|]. inversion F as [|? ? Hx Fl]; subst.
  destruct (closest_loop_spec dh target l Ht Fl x Hx) as (y & E & Hy & M). exists y. auto.
Qed.
Theorem C28_closest_of_none : forall A (dh : A -> key) target, find_closest_key_to dh [] target = None.
Proof. reflexivity. Qed.

(** Sorting by distance ends, and gives the same keys in the right order. *)
Theorem C28_sort_by_distance : forall A (dh : A -> key) l target, wf_key target -> Forall (fun x => wf_key (dh x)) l ->
  exists l', (forall fuel, (length l * length l < fuel)%nat -> sort_keys_kd dh fuel l target = Some l') /\ Permutation l l' /\
    StronglySorted (fun x y => distance_to target (dh x) <= distance_to target (dh y)) l'.
Proof.
  intros A dh l target Ht F. unfold sort_keys_kd. destruct (Nat.ltb_spec (length l) 2) as [L|L].
  - exists l. split; [reflexivity|]. split; [apply Permutation_refl|].
    destruct l as [|x [|y l]]; cbn in L; [constructor|constructor; constructor|lia].
  - destruct (passes_spec (kd_before dh target) (fun x => distance_to target (dh x)) (length l * length l) l) as (l' & H & P & S).
    + apply (inversions_bound (kd_before dh target)).
    + intros a b Ha Hb. rewrite Forall_forall in F. apply kd_before_rank; auto.
    + exists l'. auto.
Qed.

(** Sorting by common prefix: the same keys, longest common prefix first, among equals the closest first. *)
Theorem C28_sort_by_prefix : forall A (dh : A -> key) l target, wf_key target -> Forall (fun x => wf_key (dh x)) l ->
  Permutation l (sort_keys_cpm dh l target) /\
  StronglySorted (fun x y => (prefix_with target (dh x) > prefix_with target (dh y))%nat \/
     prefix_with target (dh x) = prefix_with target (dh y) /\ distance_to target (dh x) <= distance_to target (dh y)) (sort_keys_cpm dh l target).
Proof.
  intros A dh l target Ht F. unfold sort_keys_cpm. destruct (Nat.ltb_spec (length l) 2) as [L|L].
  - split; [apply Permutation_refl|]. destruct l as [|x [|y l]]; cbn in L; [constructor|constructor; constructor|lia].
  - destruct (exchange_all_spec (cpm_before dh target) (cpm_rank dh target) (length l) l eq_refl) as [P S].
    { intros a b Ha Hb. rewrite Forall_forall in F. apply cpm_before_rank; auto. }
    split; [exact P|]. assert (F' : Forall (fun x => wf_key (dh x)) (exchange_all (cpm_before dh target) (length l) l)) by (rewrite <- P; exact F).
    clear - Ht S F'. induction S as [|a l' S IH R]; [constructor|]. inversion F' as [|? ? Fa Fl]; subst.
    constructor; [auto|]. rewrite Forall_forall in *. intros y Hy. apply cpm_rank_le; auto.
Qed.

Definition k_ (n : Z) : key := [0; 0; 0; 0; 0; 0; 0; n].
Example C28_ex : let ids := fun k : key => k in
  find_closest_key_to ids [k_ 9; k_ 5; k_ 200] (k_ 6) = Some (k_ 5) /\
  sort_keys_kd ids 10 [k_ 9; k_ 5; k_ 200] (k_ 6) = Some [k_ 5; k_ 9; k_ 200] /\
  sort_keys_cpm ids [k_ 33; k_ 200; k_ 32; k_ 1000] (k_ 40) = [k_ 33; k_ 32; k_ 200; k_ 1000].
Proof. vm_compute. auto. Qed.

(** FINDING: the distance of different keys may be zero, so the key searched for may be missed although it is in the
    list. *)
Theorem C28_exact_refuted : exists (l : list key) (target : key), Forall wf_key l /\ wf_key target /\ In target l /\
  exists x, find_closest_key_to (fun k => k) l target = Some x /\ x <> target.
Proof.
  exists [dhkey_min; dhkey_max], dhkey_min. split; [constructor; [exact min_wf|constructor; [exact max_wf|constructor]]|].
  split; [exact min_wf|]. split; [left; reflexivity|]. eexists. split; [vm_compute; reflexivity|]. discriminate.
Qed.

(** ** C51 *)
Definition all_wf (xs : list call) : Prop := Forall (fun x => forall k, call_key x = Some k -> wf_key k) xs.
Lemma start_good : Good np_keycache_init (fun _ => None) (fun _ => False) [].
Proof. split; [exact init_ok|congruence|intros ? []|discriminate|reflexivity|exact min_wf]. Qed.

(** Every history of calls goes through, and every answer is that of a map with one object for each id: the object is
    the same until it is removed, a new one is different from all before, and a listing is complete. *)
Theorem C51_map : forall xs, all_wf xs -> exists c answers, performs np_keycache_init xs = Ok (c, answers) /\
  length answers = length xs /\ all_right (combine xs answers) (fun _ => None) (fun _ => False).
Proof.
  intros xs W. destruct (performs_good xs _ _ _ _ start_good W) as (c & ans & kn & E & L & R & _). eauto.
Qed.

(** The cache holds one reference to each object in it, in addition to those of its users; so an object in the cache is
    never freed as long as the users only give back what they got. *)
Theorem C51_references : forall xs c answers, all_wf xs -> performs np_keycache_init xs = Ok (c, answers) ->
  let h := combine xs answers in
  (forall k o, bound h (fun _ => None) k = Some o -> refs c o = held o h + 1) /\
  (forall o, (forall k, bound h (fun _ => None) k <> Some o) -> refs c o = held o h).
Proof.
  intros xs c answers W E h. destruct (performs_good xs _ _ _ _ start_good W) as (c' & ans & kn & E' & L & R & G).
  assert (c' = c /\ ans = answers) as [-> ->] by (rewrite E in E'; injection E'; auto). cbn [app] in G. split; [apply (g_in _ _ _ _ G)|apply (g_out _ _ _ _ G)].
Qed.
Corollary C51_alive : forall xs c answers k o, all_wf xs -> performs np_keycache_init xs = Ok (c, answers) ->
  bound (combine xs answers) (fun _ => None) k = Some o -> 0 <= held o (combine xs answers) -> 0 < refs c o.
Proof. intros xs c answers k o W E B H. destruct (C51_references xs c answers W E) as [A _]. rewrite (A k o B). lia. Qed.

(** The tree stays balanced: a search looks at no more than twice the logarithm of the number of keys. *)
Theorem C51_balanced : forall xs c answers, all_wf xs -> performs np_keycache_init xs = Ok (c, answers) ->
  let n := length (snd (np_keycache_get_all c)) in (2 ^ height (entries c) <= S n * S n)%nat.
Proof.
  intros xs c answers W E n. destruct (performs_good xs _ _ _ _ start_good W) as (c' & ans & kn & E' & L & R & G).
  assert (c' = c) by (rewrite E in E'; injection E'; auto). subst c'. apply Rbtree_Proofs.proper_height. exact (ok_proper _ _ (g_ok _ _ _ _ G)).
Qed.

Example C51_ex : match performs np_keycache_init
    [FindOrCreate (k_ 7); FindOrCreate (k_ 3); Find (k_ 7); FindOrCreate (k_ 7); Remove (k_ 7); Find (k_ 7); FindOrCreate (k_ 7); Exists (k_ 3); GetAll] with
  | Ok (c, ans) => ans = [Obj (Some 0); Obj (Some 1); Obj (Some 0); Obj (Some 0); Obj (Some 0); Obj None; Obj (Some 2); Bool true; Objs [(k_ 3, 1); (k_ 7, 2)]] /\
      refs c 0 = 3
  | _ => False
  end.
Proof. vm_compute. split; reflexivity. Qed.

(** ** C52 *)
(** While the cache does not change, the periodic job takes up every key, however it stands. *)
Theorem C52_every_key : forall xs c answers, all_wf xs -> performs np_keycache_init xs = Ok (c, answers) ->
  let ks := map fst (snd (np_keycache_get_all c)) in
  forall k, In k ks -> In k (check_runs (2 * (length ks / 10 + 1)) c).
Proof.
  intros xs c answers W E ks. destruct (performs_good xs _ _ _ _ start_good W) as (c' & ans & kn & E' & L & R & G).
  assert (c' = c) by (rewrite E in E'; injection E'; auto). subst c'.
  apply (checks_everything c _ (g_ok _ _ _ _ G) (g_from _ _ _ _ G)).
Qed.
Example C52_ex : match performs np_keycache_init (map (fun n => FindOrCreate (k_ n)) [1; 2; 3; 4; 5; 6; 7; 8; 9; 10; 11; 12; 13] ++ [Check]) with
  | Ok (c, ans) => last ans Done = Keys (map k_ [1; 2; 3; 4; 5; 6; 7; 8; 9; 10; 11]) /\
      check_runs 2 c = map k_ [11; 12; 13; 1; 2; 3; 4; 5; 6; 7; 8; 9; 10; 11]
  | _ => False
  end.
Proof. vm_compute. split; reflexivity. Qed.

(** FINDING: a key can be left out again and again while other keys come and go: if the key the job stopped at is removed,
    the next run does nothing and the one after that starts from the beginning.  Here 12 keys are in the cache all the
    time (C52_every_key: all of them are taken up in four runs), but in 20 runs the last one never is. *)
Definition starving : list call :=
  map (fun n => FindOrCreate (k_ n)) [1; 2; 3; 4; 5; 6; 7; 8; 9; 10; 11; 50] ++
  flat_map (fun _ => [Check; Remove (k_ 11); FindOrCreate (k_ 12); Check; Check; Remove (k_ 12); FindOrCreate (k_ 11); Check]) [1; 2; 3; 4; 5].
Theorem C52_changing_cache_refuted : exists c answers, performs np_keycache_init starving = Ok (c, answers) /\
  length (filter (fun x => match x with Check => true | _ => false end) starving) = 20%nat /\
  ~ In (Remove (k_ 50)) starving /\ In (FindOrCreate (k_ 50)) (firstn 12 starving) /\
  forall l, In (Keys l) answers -> ~ In (k_ 50) l.
Proof.
  assert (Chk : match performs np_keycache_init starving with
    | Ok (_, ans) => forallb (fun a => match a with Keys l => forallb (fun k => negb (np_dhkey_equal k (k_ 50))) l | _ => true end) ans
    | _ => false end = true) by (vm_compute; reflexivity).
  destruct (performs np_keycache_init starving) as [[c ans]| |]; try discriminate Chk.
  exists c, ans. split; [reflexivity|]. split; [reflexivity|]. split; [|split].
  - intros H. repeat (destruct H as [H|H]; [discriminate H|]). destruct H.
  - do 11 right. left. reflexivity.
  - intros l H Hk. rewrite forallb_forall in Chk. specialize (Chk _ H). cbn beta iota in Chk. rewrite forallb_forall in Chk.
    specialize (Chk _ Hk). rewrite equal_refl_key in Chk. discriminate.
Qed.

Print Assumptions C28_closest.
Print Assumptions C28_closest_of_none.
Print Assumptions C28_sort_by_distance.
Print Assumptions C28_sort_by_prefix.
Print Assumptions C28_exact_refuted.
Print Assumptions C51_map.
Print Assumptions C51_references.
Print Assumptions C51_balanced.
Print Assumptions C52_every_key.
Print Assumptions C52_changing_cache_refuted.
