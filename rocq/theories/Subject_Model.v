(** Model of the making of subjects and ids from texts, src/neuropil.c:70-143: np_get_id, np_generate_subject,
    np_regenerate_subject.  An id is a key of eight words (np_dhkey_t); the hash of libsodium (blake2b, 32 bytes) is a
    parameter, its value already cut into words as by src/np_dhkey.c:39-62. *)
From Coq Require Import String Ascii.
From Verif Require Import Base Dhkey_Model.
From Coq Require Import List.
Open Scope Z_scope.
Open Scope list_scope.

(** string literals of the source as bytes *)
Definition sbytes (s : string) : list Z := map (fun c => Z.of_N (N_of_ascii c)) (list_ascii_of_string s).
Definition zero_key : key := repeat 0 8.
Definition key_eqb (a b : key) : bool := if list_eq_dec Z.eq_dec a b then true else false.

(** neuropil.c:93-108: the names the node uses itself; include/core/np_comp_msgproperty.h:58-78 *)
Definition known_subjects : list (list Z) := map sbytes
  ["_NP.ACK"; "_NP.HANDSHAKE"; "_NP.JOIN.REQUEST"; "_NP.LEAVE.REQUEST"; "_NP.PING.REQUEST"; "_NP.NODES.PIGGY"; "_NP.NODES.UPDATE"; "_NP.PHEROMONE.UPDATE";
   "_NP.MESSAGE.RECEIVER.TOKEN"; "_NP.MESSAGE.SENDER.TOKEN"; "_NP.MESSAGE.AUTHENTICATE"; "_NP.MESSAGE.AUTHENICATION.REPLY"; "_NP.MESSAGE.AUTHORIZE"; "_NP.MESSAGE.AUTHORIZATION.REPLY";
   "_NP.MESSAGE.ACCOUNT"; "_NP.SYSINFO.DATA"]%string.

Section Hash.
  Variable H : list Z -> key.

  (** neuropil.c:70-74 np_get_id; [mem] is the memory behind [string].  Reading past it is undefined. *)
  Definition np_get_id (mem : list Z) (length_ : Z) : outcome key :=
    if Z.of_nat (length mem) <? length_ then UB else Ok (H (firstn (Z.to_nat length_) mem)).
  (** neuropil.c:136-143 np_generate_subject; [id]: what is in *subject_id before *)
  Definition np_generate_subject (id : key) (mem : list Z) (length_ : Z) : outcome (Z * key) :=
    if Z.of_nat (length mem) <? length_ then UB else Ok (0, np_dhkey_xor (H (firstn (Z.to_nat length_) mem)) id).

  (** neuropil.c:85-134 np_regenerate_subject as steps of threads.  The two static variables are shared by all threads and not
      protected; the exclusive-or of one subject is one step here (in C it is several, and unprotected access from two threads
      is already undefined). *)
  Inductive spc :=
  | SIdle
  | SCheck (subject : key) (len : Z)        (* neuropil.c:111 *)
  | SFill (i : nat) (subject : key) (len : Z) (* 112-116 *)
  | SFlag (subject : key) (len : Z)         (* 117 *)
  | SSearch (subject : key) (len : Z).      (* 120-133 *)
  (** what the caller sees: answer and the bytes written to its buffer; or bytes are written behind it *)
  Inductive sresult := Answer (ret : Z) (written : list Z) | Overrun.
  Record regen := mkRegen { r_flag : bool; r_table : list key; r_pc : nat -> spc; r_log : list (key * Z * bool * sresult) }.
  Definition regen0 : regen := mkRegen false (repeat zero_key 16) (fun _ => SIdle) [].
  Definition set_pc (w : regen) (a : nat) (p : spc) : regen := mkRegen (r_flag w) (r_table w) (fun b => if Nat.eqb b a then p else r_pc w b) (r_log w).

  (** strncpy: the name, filled with zeros *)
  Definition strncpy_name (name : list Z) (len : Z) : list Z := firstn (Z.to_nat len) name ++ repeat 0 (Z.to_nat len - length name).
  Fixpoint search (subject : key) (names : list (list Z)) (table : list key) : option (list Z) :=
    match names, table with
    | name :: names, k :: table => if key_eqb subject k then Some name else search subject names table
    | _, _ => None
    end.
  (** 120-133: np_invalid_argument is 5, np_not_implemented 3 (include/neuropil.h:115-125); np_id_str writes 65 bytes
      (neuropil.c:1069-1074) *)
  Definition look (w : regen) (subject : key) (len : Z) : sresult :=
    match search subject known_subjects (r_table w) with
    | Some name => Answer 0 (strncpy_name name len)
    | None => if len <? 65 then Overrun else Answer 3 (np_dhkey_str subject ++ [0])
    end.
  Inductive sev := SCall (a : nat) (subject : key) (len : Z) (null : bool) | SStep (a : nat).
  Definition sstep (w : regen) (e : sev) : option regen :=
    match e with
    | SCall a subject len null =>
        match r_pc w a with
        | SIdle =>
            if (len <? 64) || null then Some (mkRegen (r_flag w) (r_table w) (r_pc w) ((subject, len, null, Answer 5 []) :: r_log w))
            else Some (set_pc w a (SCheck subject len))
        | _ => None
        end
    | SStep a =>
        match r_pc w a with
        | SIdle => None
        | SCheck s l => Some (set_pc w a (if r_flag w then SSearch s l else SFill 0 s l))
        | SFill i s l =>
            let table := upd (r_table w) i (np_dhkey_xor (H (nth i known_subjects [])) (nth i (r_table w) zero_key)) in
            Some (set_pc (mkRegen (r_flag w) table (r_pc w) (r_log w)) a (if Nat.ltb (S i) 16 then SFill (S i) s l else SFlag s l))
        | SFlag s l => Some (set_pc (mkRegen true (r_table w) (r_pc w) (r_log w)) a (SSearch s l))
        | SSearch s l => Some (set_pc (mkRegen (r_flag w) (r_table w) (r_pc w) ((s, l, false, look w s l) :: r_log w)) a SIdle)
        end
    end.
  Fixpoint ssteps (w : regen) (es : list sev) : option regen :=
    match es with [] => Some w | e :: es => match sstep w e with Some w' => ssteps w' es | None => None end end.
End Hash.
