(** What the pheromone table is supposed to do, in terms of what was smelled. *)
From Verif Require Import Base Dhkey_Model Bloom_Model Bloom_Spec Pheromone_Model.

(** A call of the node: a pheromone of [subject] arrives from the neighbour [source], which leads to receivers of the subject
    ([to_receiver]) or to senders of it; [steps] hundredths of a second old (0: the node's own use of inhale_target);
    or the periodic decay of a bucket *)
Inductive call :=
| Smell (subject source : key) (to_receiver : bool) (steps : nat) (now : Z)
| Use (subject source : key) (to_receiver : bool) (now : Z)
| Exhale (i : Z).
Definition step (tb : table) (c : call) : outcome (table * bool) :=
  match c with
  | Smell s src r k now => obind (nbf_add nbf_create s) (fun p => in_pheromone tb (position s r) p k src now)
  | Use s src r now => inhale_target tb s src r (negb r) now
  | Exhale i => obind (exhale tb i) (fun tb' => Ok (tb', true))
  end.
Fixpoint run (tb : table) (h : list call) : outcome table :=
  match h with [] => Ok tb | c :: r => obind (step tb c) (fun '(tb', _) => run tb' r) end.

(** the bucket of a subject: first word of the key modulo 257 *)
Definition bucket_of (s : key) : Z := nth 0 s 0 mod 257.
(** the subjects of two keys cannot be told apart by the filters *)
Definition same_cells (s s' : key) : Prop := forall c, In c (cells_of s) <-> In c (cells_of s').
(** the eight words of the key fall into eight different cells (two words share each of the four blocks) *)
Definition regular (s : key) : Prop := NoDup (cells_of s).
Definition sources (h : list call) : list key :=
  flat_map (fun c => match c with Smell _ src _ _ _ => [src] | Use _ src _ _ => [src] | Exhale _ => [] end) h.
Definition subjects (h : list call) : list key :=
  flat_map (fun c => match c with Smell s _ _ _ _ => [s] | Use s _ _ _ => [s] | Exhale _ => [] end) h.
Definition times (h : list call) : list Z :=
  flat_map (fun c => match c with Smell _ _ _ _ now => [now] | Use _ _ _ now => [now] | Exhale _ => [] end) h.
(** [s] was smelled from [src] *)
Definition smelled (h : list call) (s src : key) (r : bool) : Prop :=
  exists k now, In (Smell s src r k now) h \/ In (Use s src r now) h.
Fixpoint increasing (l : list Z) : Prop :=
  match l with [] => True | x :: r => match r with [] => True | y :: _ => x < y end /\ increasing r end.
(** no two of the keys are equally far from [me] *)
Definition apart (me : key) (ks : list key) : Prop :=
  forall a b, In a ks -> In b ks -> np_dhkey_distance me a = np_dhkey_distance me b -> a = b.
(** histories with well formed keys, subjects that take eight cells, neighbours at different distances, and a clock that
    moves on *)
Record good (me : key) (h : list call) : Prop := {
  g_me : wf_key me;
  g_subjects : Forall (fun s => wf_key s /\ regular s) (subjects h);
  g_sources : Forall (fun k => wf_key k /\ k <> repeat 0 8) (sources h);
  g_apart : apart me (sources h);
  g_times : increasing (times h);
  g_buckets : Forall (fun c => match c with Exhale i => 0 <= i < 257 | _ => True end) h }.

(** the answer to "who leads to a receiver (or a sender) of [s]", asked with the lowest demand *)
Definition trail (tb : table) (s : key) (r : bool) : outcome (list key * Z) :=
  if r then snuffle_receiver tb s 0 else snuffle_sender tb s 0.
(** number of sources kept in one entry, and in a bucket *)
Definition kept (e : pher) : Z := Z.of_nat (length (send e)) + Z.of_nat (length (recv e)).
Definition kept_in (b : bucket) : Z := fold_right (fun e n => kept e + n) 0 (ents b).
(** [P] holds of the table before every call of the history *)
Fixpoint along (P : table -> call -> Prop) (tb : table) (h : list call) : Prop :=
  match h with
  | [] => True
  | c :: r => P tb c /\ match step tb c with Ok (tb', _) => along P tb' r | _ => True end
  end.

(** any use of the table: pheromones with any filter, position and source *)
Inductive any_call := Inhale (s : scent) (now : Z) | Decay (i : Z).
Fixpoint any_run (tb : table) (h : list any_call) : outcome table :=
  match h with
  | [] => Ok tb
  | Inhale s now :: r => obind (inhale tb s now) (fun '(tb', _) => any_run tb' r)
  | Decay i :: r => obind (exhale tb i) (fun tb' => any_run tb' r)
  end.
(** number of decays of bucket [i] *)
Definition decays (i : Z) (h : list call) : Z :=
  Z.of_nat (length (filter (fun c => match c with Exhale j => j =? i | _ => false end) h)).
(** a call that smells [s] from [src] with a filter that has travelled for [k] hundredths of a second *)
Definition smells_of (c : call) (s src : key) (r : bool) (k : nat) : Prop :=
  (exists now, c = Smell s src r k now) \/ (k = 0%nat /\ exists now, c = Use s src r now).
(** before call [c] the bucket of [s] holds at most 254 sources, and no entry with exactly 32 sources meets a decay *)
Definition calm (s : key) (tb : table) (c : call) : Prop :=
  forall b, buckets tb (bucket_of s) = Some b -> kept_in b <= 254 /\ (c = Exhale (bucket_of s) -> forall e, In e (ents b) -> kept e <> 32).
