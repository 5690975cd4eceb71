(** Model of the making of ids of messages and tokens: src/np_util.c:55-78 np_uuid_create.
    The clock reading is the double returned by ev_time (src/np_time.c:23, 51-63).  From 2004 to 2038 the doubles are multiples of
    2^-22 s; a reading is the number of such units.  The hash (libsodium, crypto_generichash_blake2b, 16 bytes) is a parameter. *)
From Verif Require Import Base.

(** ** printf with C locale *)
(** the last [n] decimal digits of [x], most significant first: ASCII *)
Fixpoint digits (n : nat) (x : Z) : list Z :=
  match n with O => [] | S n => digits n (x / 10) ++ [48 + x mod 10] end.
(** %u without a width: as many digits as needed, [fuel] more than enough *)
Fixpoint unsigned (fuel : nat) (x : Z) : list Z :=
  match fuel with
  | O => []
  | S f => (if x <? 10 then [] else unsigned f (x / 10)) ++ [48 + x mod 10]
  end.
(** %64s: spaces on the left *)
Definition pad64 (s : list Z) : list Z := repeat 32 (64 - length s) ++ s.
(** %16.16f: rounded to 16 places behind the point, ties to even.  [t] units of 2^-22 s are t * 5^16 / 2^6 units of 10^-16 s. *)
Definition round_even (a b : Z) : Z :=
  let q := a / b in let r := a mod b in
  if 2 * r <? b then q else if b <? 2 * r then q + 1 else if Z.even q then q else q + 1.
Definition decimals (t : Z) : Z := round_even (t * 152587890625) 64.
Definition seconds (t : Z) : list Z :=
  unsigned 20 (decimals t / 10000000000000000) ++ [46] ++ digits 16 (decimals t mod 10000000000000000).

(** src/np_util.c:64-67: input[256] is zero; at most 254 characters and a zero are written *)
Definition uuid_text (str : list Z) (num t : Z) : list Z :=
  pad64 str ++ [58] ++ digits 10 num ++ [58] ++ seconds t.
Definition uuid_input (str : list Z) (num t : Z) : list Z :=
  let s := firstn 254 (uuid_text str num t) in s ++ repeat 0 (256 - length s).

(** src/np_util.c:69-76; [H] hashes 256 bytes to 16 *)
Definition uuid_create (H : list Z -> list Z) (str : list Z) (num t : Z) : list Z := H (uuid_input str num t).

(** ** The callers: src/np_message.c:612, src/np_aaatoken.c:85, src/np_eventqueue.c:166, src/np_memory.c:379, 480 *)
Inductive thing := AMessage | AToken | ARun | AContainer | ARefresh.
From Coq Require Import String Ascii.
Fixpoint text (s : string) : list Z :=
  match s with EmptyString => [] | String c s => Z.of_nat (nat_of_ascii c) :: text s end.
Definition urn (x : thing) : list Z * Z :=
  match x with
  | AMessage => (text "urn:np:message:generate_message_id", 32564)
  | AToken => (text "urn:np:token:create_generic_token", 0)
  | ARun => (text "urn:np:runtime:create_event_id", 5455)
  | AContainer => (text "urn:np:memory:create_memory_container", 0)
  | ARefresh => (text "urn:np:memory:refresh_memory_container", 0)
  end.
Definition new_id (H : list Z -> list Z) (x : thing) (t : Z) : list Z := uuid_create H (fst (urn x)) (snd (urn x)) t.
