(** Metrics of a node: framework/prometheus/prometheus.c and its use in src/np_statistics.c.
    Simplified: one call is one step (every call holds the lock of the metric or of the context for its whole length); within one call
    the clock is read once; a rate has no rates of its own (np_statistics.c makes none); malloc does not fail; times do not
    reach 2^64 ms and values do not reach 2^128 (infinity).  printf: C locale, glibc. *)
From Coq Require Import String.
From Verif Require Import Base Uuid_Model Lock_Model.
Open Scope string_scope.
Open Scope list_scope.
Open Scope Z_scope.

(** ** float: IEEE 754 binary32.  Every finite float is a multiple of 2^-149; a value is the number of such units. *)
Definition one : Z := 2 ^ 149.
(** the float nearest to the fraction [n]/[d] of units ([d] > 0): 24 significant bits, ties to even *)
Definition fl (n d : Z) : Z :=
  let k := Z.max 0 (Z.log2 (Z.abs n / d) - 23) in
  Z.sgn n * (round_even (Z.abs n) (d * 2 ^ k) * 2 ^ k).
(** conversion of an integer, sum, difference, quotient (by a positive number) *)
Definition of_int (n : Z) : Z := fl (n * one) 1.
Definition fadd (x y : Z) : Z := fl (x + y) 1.
Definition fsub (x y : Z) : Z := fl (x - y) 1.
Definition fdiv (x y : Z) : Z := fl (x * one) y.

(** ** Data: prometheus.c:14-56, prometheus.h:19-22.  A text in an array of 255 characters is the characters before the first zero; 255
    characters: there is no zero in the array. *)
Notation chars := (list Z).
Record label := mkLabel { l_name : chars; l_value : chars }.
Record rate := mkRate {
  r_metric : nat;      (* self: the metric that shows the rate *)
  r_interval : Z;      (* interval_ms *)
  r_last : Z;          (* last_update *)
  r_value : Z }.       (* last_value *)
Record metric := mkMetric {
  m_name : chars;
  m_labels : list label;     (* newest first *)
  m_value : Z;
  m_time : Z;                (* time_ms *)
  m_rates : list rate }.     (* sub_metrics, newest first *)
(** the context: whether it has a clock, and its metrics.  A metric is known by its position, oldest first (the list of the code is
    newest first). *)
Record registry := mkReg { has_clock : bool; metrics : list metric }.

Fixpoint change {A} (i : nat) (f : A -> A) (l : list A) : list A :=
  match l, i with
  | [], _ => []
  | x :: l, O => f x :: l
  | x :: l, S i => x :: change i f l
  end.
Definition on (i : nat) (f : metric -> metric) (r : registry) : registry := mkReg (has_clock r) (change i f (metrics r)).
Definition set_labels (ls : list label) (m : metric) : metric :=
  mkMetric (m_name m) ls (m_value m) (m_time m) (m_rates m).
Definition set_value (v t : Z) (m : metric) : metric := mkMetric (m_name m) (m_labels m) v t (m_rates m).
Definition set_rates (rs : list rate) (m : metric) : metric :=
  mkMetric (m_name m) (m_labels m) (m_value m) (m_time m) rs.

(** strncpy to an array of 255 characters *)
Definition field (s : chars) : chars := firstn 255 s.

(** prometheus.c:58-65 prometheus_create_context *)
Definition create_context (clock : bool) : registry := mkReg clock [].

(** prometheus.c:109-127 prometheus_register_metric; the new metric is the last *)
Definition register_metric (name : chars) (r : registry) : registry :=
  mkReg (has_clock r) (metrics r ++ [mkMetric (field name) [] 0 0 []]).

(** prometheus.c:160-179 prometheus_metric_add_label *)
Definition add1 (l : label) (m : metric) : metric := set_labels (l :: m_labels m) m.
Definition add_label (i : nat) (l : label) (r : registry) : registry :=
  match nth_error (metrics r) i with
  | None => r
  | Some m => fold_left (fun r s => on (r_metric s) (add1 l) r) (m_rates m) (on i (add1 l) r)
  end.

(** prometheus.c:180-206 prometheus_metric_replace_label *)
Definition same_name (a b : label) : bool := if list_eq_dec Z.eq_dec (l_name a) (l_name b) then true else false.
Definition has_label (l : label) (m : metric) : bool := existsb (same_name l) (m_labels m).
Definition replace1 (l : label) (m : metric) : metric :=
  set_labels (map (fun x => if same_name l x then mkLabel (l_name x) (field (l_value l)) else x) (m_labels m)) m.
Definition replace_or_add (l : label) (m : metric) : metric := if has_label l m then replace1 l m else add1 l m.
Definition replace_label (i : nat) (l : label) (r : registry) : registry :=
  match nth_error (metrics r) i with
  | None => r
  | Some m =>
    if has_label l m
    then fold_left (fun r s => on (r_metric s) (replace_or_add l) r) (m_rates m) (on i (replace1 l) r)
    else add_label i l r
  end.

(** prometheus.c:129-158 prometheus_register_sub_metric_time; [sec] > 0.  The new metric is the last. *)
Definition interval_label (sec : Z) : label := mkLabel (text "interval") (unsigned 6 sec).
Definition register_rate (base : nat) (sec : Z) (r : registry) : registry :=
  match nth_error (metrics r) base with
  | None => r
  | Some b =>
    let r1 := register_metric (firstn 254 (m_name b ++ text "_per_secs")) r in
    let i := length (metrics r) in
    let r2 := add_label i (interval_label sec) r1 in
    let r3 := fold_left (fun r l => add_label i l r) (m_labels b) r2 in
    on base (set_rates (mkRate i (sec * 1000) 0 (m_value b) :: m_rates b)) r3
  end.

(** prometheus.c:208-229 __prometheus_metric_update_sub_metrics for one rate of a metric with value [v] *)
Definition due (now : Z) (s : rate) : bool := r_last s + r_interval s <=? now.
Definition average (v now : Z) (s : rate) : Z :=
  fdiv (fsub v (r_value s)) (fdiv (of_int (now - r_last s)) (of_int (r_interval s))).
Definition update_rates (i : nat) (now : Z) (r : registry) : registry :=
  match nth_error (metrics r) i with
  | None => r
  | Some m =>
    if has_clock r
    then on i (set_rates (map (fun s => if due now s then mkRate (r_metric s) (r_interval s) now (m_value m) else s) (m_rates m)))
           (fold_left (fun r s => if due now s then on (r_metric s) (set_value (average (m_value m) now s) now) r else r)
                      (m_rates m) r)
    else r
  end.

(** prometheus.c:231-251 prometheus_metric_inc, prometheus_metric_set; [now]: what the clock shows *)
Definition metric_inc (i : nat) (x now : Z) (r : registry) : registry :=
  update_rates i now (on i (fun m => set_value (fadd (m_value m) x) (if has_clock r then now else m_time m) m) r).
Definition metric_set (i : nat) (x now : Z) (r : registry) : registry :=
  update_rates i now (on i (fun m => set_value x (if has_clock r then now else m_time m) m) r).

(** prometheus.c:253-261 prometheus_metric_get: without a clock a null pointer is called *)
Definition metric_get (i : nat) (now : Z) (r : registry) : outcome (Z * registry) :=
  if has_clock r then
    let r' := update_rates i now r in
    match nth_error (metrics r') i with Some m => Ok (m_value m, r') | None => UB end
  else UB.

(** ** Calls of a program *)
Inductive call :=
| Register (name : chars)
| RegisterRate (base : nat) (sec : Z)
| AddLabel (i : nat) (l : label)
| ReplaceLabel (i : nat) (l : label)
| Inc (i : nat) (x now : Z)
| Set_ (i : nat) (x now : Z)
| Get (i : nat) (now : Z).
Definition do_call (c : call) (r : registry) : registry :=
  match c with
  | Register n => register_metric n r
  | RegisterRate b s => register_rate b s r
  | AddLabel i l => add_label i l r
  | ReplaceLabel i l => replace_label i l r
  | Inc i x now => metric_inc i x now r
  | Set_ i x now => metric_set i x now r
  | Get i now => match metric_get i now r with Ok (_, r') => r' | _ => r end
  end.
Definition do_calls (cs : list call) (r : registry) : registry := fold_left (fun r c => do_call c r) cs r.

(** ** Export: prometheus.c:304-403 prometheus_format *)
(** %f: six places behind the point *)
Definition show (v : Z) : chars :=
  let n := round_even (Z.abs v * 1000000) one in
  (if v <? 0 then [45] else []) ++ unsigned 60 (n / 1000000) ++ [46] ++ digits 6 (n mod 1000000).

(** 314-344 (and 263-302 prometheus_format_size): the size of the buffer *)
Fixpoint labels_size (ls : list label) : Z :=
  match ls with
  | [] => 0
  | l :: ls => Z.of_nat (length (l_name l)) + 3 + Z.of_nat (length (l_value l)) + (if ls then 0 else 1) + labels_size ls
  end.
Definition metric_size (m : metric) : Z :=
  Z.of_nat (length (m_name m)) + 21 + (if m_time m =? 0 then 0 else 14)
  + (if m_labels m then 0 else 2) + labels_size (m_labels m) + 1.
Definition buffer_size (r : registry) : Z :=
  (1 + fold_right (fun m n => metric_size m + n) 0 (metrics r)) mod 2 ^ 32.

(** 353-396: what each snprintf prints *)
Fixpoint label_pieces (ls : list label) : list chars :=
  match ls with
  | [] => []
  | l :: ls => (l_name l ++ [61; 34] ++ l_value l ++ [34]) :: (if ls then [] else [[44]]) ++ label_pieces ls
  end.
Definition pieces (m : metric) : list chars :=
  [m_name m] ++ (if m_labels m then [] else [[123]]) ++ label_pieces (m_labels m)
  ++ (if m_labels m then [] else [[125]]) ++ [32 :: show (m_value m)]
  ++ (if m_time m =? 0 then [] else [32 :: unsigned 20 (m_time m)]) ++ [[10]].
Definition all_pieces (r : registry) : list chars := flat_map pieces (rev (metrics r)).

(** the buffer: [None] is a byte never written; [pos]: ret_pointer; [size]: uint32_t *)
Record out := mkOut { buf : list (option Z); pos : Z; size : Z }.
(** one [ret_pointer += snprintf(ret + ret_pointer, size, ...); size -= ret_pointer;] *)
Definition put (s : chars) (o : out) : outcome out :=
  let n := Z.min (Z.of_nat (length s)) (size o - 1) in
  let p := pos o + Z.of_nat (length s) in
  let size' := (size o - p) mod 2 ^ 32 in
  if size o =? 0 then Ok (mkOut (buf o) p size')
  else if pos o + n <? Z.of_nat (length (buf o))
  then Ok (mkOut (firstn (Z.to_nat (pos o)) (buf o) ++ map Some (firstn (Z.to_nat n) s) ++ [Some 0]
                  ++ skipn (Z.to_nat (pos o + n + 1)) (buf o)) p size')
  else UB.                                        (* written behind the buffer *)
Fixpoint puts (l : list chars) (o : out) : outcome out :=
  match l with [] => Ok o | s :: l => obind (put s o) (puts l) end.
(** %s of an array without a zero reads behind the array *)
Definition terminated (s : chars) : bool := Nat.ltb (length s) 255.
Definition readable (m : metric) : bool :=
  terminated (m_name m) && forallb (fun l => terminated (l_name l) && terminated (l_value l)) (m_labels m).
(** 398 [ret[size - 1] = 0] *)
Definition finish (o : out) : outcome (list (option Z)) :=
  let i := (size o - 1) mod 2 ^ 32 in
  if i <? Z.of_nat (length (buf o)) then Ok (change (Z.to_nat i) (fun _ => Some 0) (buf o)) else UB.
Definition format (r : registry) : outcome (list (option Z)) :=
  if forallb readable (metrics r) then
    let n := buffer_size r in
    obind (puts (all_pieces r) (mkOut (repeat None (Z.to_nat n)) 0 n)) finish
  else UB.

(** ** Locks: the lock of the context and the lock of its oldest metric (the last one the loop sees) *)
Record locks := mkLocks { w_lock : mutex; rw_lock : mutex }.
(** prometheus.c:263-302 prometheus_format_size by thread [t]: the lock of the context is taken, another one is given back;
    [None]: the thread has to wait *)
Definition format_size (t : nat) (k : locks) : option locks :=
  match mutex_lock t (w_lock k) with
  | None => None
  | Some w => Some (mkLocks w (mutex_unlock t (rw_lock k)))
  end.
(** prometheus_format (306, 399), prometheus_register_metric (120-124), prometheus_metric_add_label (162, 177) by thread [t] *)
Definition with_w_lock (t : nat) (k : locks) : option locks :=
  match mutex_lock t (w_lock k) with
  | None => None
  | Some w => Some (mkLocks (mutex_unlock t w) (rw_lock k))
  end.
(** np_statistics.c:133-145 _np_http_handle_metrics: the text, then its size *)
Definition handle_metrics (t : nat) (k : locks) : option locks :=
  match with_w_lock t k with None => None | Some k => format_size t k end.

(** ** The metrics of a node: np_statistics.c:147-276 _np_statistics_init, np_settings.h:95-96, np_statistics.c:374-412
    (labels node, identity and instance) *)
Definition prefixed (s : string) : chars := text "neuropil_" ++ text s.
Definition node_calls : list call :=
  map (fun s => Register (prefixed s))
    ["uptime"; "forwarded_msgs_sum"; "received_msgs_sum"; "send_msgs_sum"; "jobs_count"; "network_in_bytes"; "network_out_bytes";
     "routing_neighbor_count"; "routing_route_count"; "pheromones_inhale"; "pheromones_exhale"]%string
  ++ [RegisterRate 5 1; RegisterRate 6 1].
Definition describe (version : chars) : list call :=
  [AddLabel 0 (mkLabel (text "version") version); AddLabel 0 (mkLabel (text "application") (text "neuropil_exporter"));
   AddLabel 0 (mkLabel (text "description") (text "None"))].
Definition node_labels (node ident inst : chars) : list call :=
  flat_map (fun i => [ReplaceLabel i (mkLabel (text "node") node); ReplaceLabel i (mkLabel (text "identity") ident);
                      ReplaceLabel i (mkLabel (text "instance") inst)]) (seq 0 13).
Definition node_registry (version node ident inst : chars) (now : Z) : registry :=
  do_calls (node_calls ++ describe version ++ [Set_ 0 0 now] ++ node_labels node ident inst) (create_context true).
(** np_statistics.c:414-424 np_statistics_set_node_description *)
Definition set_node_description (d : chars) (r : registry) : registry :=
  replace_label 0 (mkLabel (text "description") (field d)) r.
