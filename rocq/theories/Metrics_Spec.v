(** What users of the metrics rely on, in plain terms.  Values are counted in units of 2^-149 (every binary32 float is a whole number of
    them). *)
From Coq Require Import String.
From Verif Require Import Base Uuid_Model Metrics_Model.
Open Scope list_scope.
Open Scope Z_scope.

(** the number [n] *)
Definition whole (n : Z) : Z := n * 2 ^ 149.
(** floats: 24 significant bits *)
Definition is_float (v : Z) : Prop := exists m e, 0 <= m <= 16777216 /\ 0 <= e /\ v = m * 2 ^ e.

(** the value of metric [i] *)
Definition value_of (r : registry) (i : nat) : option Z :=
  match nth_error (metrics r) i with Some m => Some (m_value m) | None => None end.
(** metric [i] shows the rate of metric [b] *)
Definition rate_of (r : registry) (b i : nat) : Prop :=
  exists m s, nth_error (metrics r) b = Some m /\ In s (m_rates m) /\ r_metric s = i.
(** metric [i] was made by prometheus_register_metric *)
Definition plain (r : registry) (i : nat) : Prop := (i < List.length (metrics r))%nat /\ forall b, ~ rate_of r b i.

(** last value set plus everything added since *)
Fixpoint expected (i : nat) (v : Z) (cs : list call) : Z :=
  match cs with
  | [] => v
  | Set_ j x _ :: cs => expected i (if Nat.eqb j i then x else v) cs
  | Inc j x _ :: cs => expected i (if Nat.eqb j i then v + x else v) cs
  | _ :: cs => expected i v cs
  end.
(** at every moment it is a whole number up to 2^24 *)
Definition moderate (i : nat) (v : Z) (cs : list call) : Prop :=
  forall p q, cs = p ++ q -> exists n, 0 <= n <= 16777216 /\ expected i v p = whole n.

(** only additions *)
Definition only_adds (i : nat) (c : call) : Prop :=
  match c with Set_ j _ _ => j <> i | Inc j x _ => j = i -> 0 <= x | _ => True end.

(** the call does not read, add to or set metric [b] or set metric [i] *)
Definition away_from (b i : nat) (c : call) : Prop :=
  match c with
  | Set_ j _ _ | Inc j _ _ => j <> b /\ j <> i
  | Get j _ => j <> b
  | _ => True
  end.

(** ** the text: name{label="value",...} value time *)
Fixpoint labels_text (ls : list label) : chars :=
  match ls with
  | [] => []
  | [l] => l_name l ++ text "=""" ++ l_value l ++ text """"
  | l :: ls => l_name l ++ text "=""" ++ l_value l ++ text """" ++ text "," ++ labels_text ls
  end.
Definition line (value_text time_text : Z -> chars) (m : metric) : chars :=
  m_name m ++ match m_labels m with [] => [] | ls => text "{" ++ labels_text ls ++ text "}" end
  ++ text " " ++ value_text (m_value m)
  ++ (if m_time m =? 0 then [] else text " " ++ time_text (m_time m)) ++ [10].
(** all metrics, newest first *)
Definition document (value_text time_text : Z -> chars) (r : registry) : chars :=
  List.concat (map (line value_text time_text) (rev (metrics r))).

(** number of characters of the names and labels *)
Definition label_length (l : label) : Z := Z.of_nat (List.length (l_name l)) + Z.of_nat (List.length (l_value l)) + 4.
Definition label_lengths (ls : list label) : Z := fold_right (fun l n => label_length l + n) 0 ls.
Definition lengths (r : registry) : Z :=
  fold_right (fun m n => Z.of_nat (List.length (m_name m)) + 40 + label_lengths (m_labels m) + n) 0 (metrics r).
(** numbers with at most 13 digits before the point *)
Definition usual (m : metric) : Prop := 0 <= m_value m < whole 9999999999999 /\ 0 <= m_time m < 10000000000000.

(** label [n] of a metric *)
Definition label_values (n : chars) (m : metric) : list chars :=
  map l_value (filter (fun l => if list_eq_dec Z.eq_dec (l_name l) n then true else false) (m_labels m)).

(** metrics are registered with names of at least two characters *)
Definition long_name (c : call) : Prop := match c with Register n => (2 <= List.length n)%nat | _ => True end.
(** [n] requests for the metrics, answered by thread [t] *)
Fixpoint requests (t n : nat) (k : locks) : option locks :=
  match n with O => Some k | S n => match handle_metrics t k with Some k => requests t n k | None => None end end.
(** number of lines *)
Definition line_count (s : chars) : nat := List.length (filter (Z.eqb 10) s).
