(** Model of the cache of messages that come in pieces, and of the filter of the messages seen before:
    src/core/np_comp_alias.c:36-244, on top of [Message_Model] (a single message) and [Bloom_Model] (the filter).
    Not modelled: the thread switch between check and add of a message of one part (see C43), reference counts, log
    output, malloc failure.  The key of a message (np_comp_alias.c:50-60, hash of its uuid and of its mac without the
    first two bytes) is a parameter of the arrival. *)
From Verif Require Import Base Dhkey_Model Bloom_Model Message_Model.

Definition same_key (a b : key) : bool := if list_eq_dec Z.eq_dec a b then true else false.
(** context->msg_part_cache (a tree by key, here a list without two entries of one key) and context->msg_part_filter *)
Record parts_state := mkParts { seen_filter : bloom; waiting : list (key * rstate) }.
Fixpoint lookup (k : key) (l : list (key * rstate)) : option rstate :=
  match l with [] => None | (k', s) :: r => if same_key k k' then Some s else lookup k r end.
Definition remove (k : key) (l : list (key * rstate)) : list (key * rstate) := filter (fun e => negb (same_key k (fst e))) l.
Definition replace (k : key) (s : rstate) (l : list (key * rstate)) : list (key * rstate) :=
  map (fun e => if same_key k (fst e) then (k, s) else e) l.
(** include/np_settings.h NP_MSG_PART_FILTER_SIZE; src/neuropil.c:262-271 creates filter and cache *)
Definition FILTER_SIZE : Z := 8192.
Definition start : parts_state := mkParts (decaying_create FILTER_SIZE 16 1) [].

(** src/core/np_comp_alias.c:36-169.  [Some s]: the message is handed on.  Fuel as in [add_chunk]. *)
Definition arrive (fuel : nat) (st : parts_state) (k : key) (p : packet) : outcome (option rstate * parts_state) :=
  obind (decaying_check (seen_filter st) k) (fun seen =>                           (* 62-69 *)
  if seen then Ok (None, st)                                                       (* 159-167 *)
  else if 1 <? pparts p then                                                       (* 74 *)
    match lookup k (waiting st) with
    | Some s =>                                                                    (* 80-119 *)
        obind (add_chunk fuel s p) (fun '(_, s') =>
        if reported_complete (Some s') then
          obind (decaying_add (seen_filter st) k) (fun f => Ok (Some s', mkParts f (remove k (waiting st))))
        else Ok (None, mkParts (seen_filter st) (replace k s' (waiting st))))
    | None =>                                                                      (* 120-145 *)
        obind (first_chunk p) (fun '(_, s) => Ok (None, mkParts (seen_filter st) ((k, s) :: waiting st)))
    end
  else obind (first_chunk p) (fun '(_, s) =>                                       (* 147-158 *)
       obind (decaying_add (seen_filter st) k) (fun f => Ok (Some s, mkParts f (waiting st))))).

(** floor(cbrt(n)) for a uint16_t, np_comp_alias.c:211-213; cbrt is taken to be exact on cubes *)
Definition cube_root (n : Z) : Z := Z.of_nat (length (filter (fun i => (i + 1) * ((i + 1) * (i + 1)) <=? n) (zrange 41))).
(** np_message.c:327-354: creation time and life time come from the header of the first part ([time_of] reads them) *)
Definition outdated (time_of : list Z -> Z * Z) (now : Z) (s : rstate) : bool :=
  match slots s with Some p0 :: _ => let (t, ttl) := time_of (pheader p0) in is_expired t ttl now | _ => false end.
(** np_comp_alias.c:171-244; [peers]: entries of routing table and leafset *)
Definition cleanup (time_of : list Z -> Z * Z) (st : parts_state) (now peers : Z) : outcome parts_state :=
  obind (decaying_decay (seen_filter st)) (fun f =>                                (* 200 *)
  let modifier := u8 (cube_root (u16 peers)) in                                    (* 211-213 *)
  let sz := if 0 <? modifier then modifier * FILTER_SIZE else FILTER_SIZE in       (* 223-225 *)
  obind (if size f =? sz then Ok f else decaying_clear (set_size f sz)) (fun f2 => (* 226-234 *)
  let prune := if 1 <? modifier then modifier else 1 in                            (* 236-240 *)
  Ok (mkParts (set_p f2 prune) (filter (fun e => negb (outdated time_of now (snd e))) (waiting st))))).  (* 186-206 *)
