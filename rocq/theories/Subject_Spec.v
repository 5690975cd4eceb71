(** Vocabulary for the claims about subjects (C86). *)
From Coq Require Import String Ascii.
From Verif Require Import Base Dhkey_Model Subject_Model.
From Coq Require Import List.
Open Scope Z_scope.
Open Scope list_scope.

(** a hash gives keys of eight words of 32 bits *)
Definition hashes (H : list Z -> key) : Prop := forall m, wf_key (H m).
(** the subject after the given texts, beginning with what is in the field *)
Fixpoint after_texts (H : list Z -> key) (id : key) (texts : list (list Z)) : outcome key :=
  match texts with
  | [] => Ok id
  | t :: ts => obind (np_generate_subject H id t (Z.of_nat (length t))) (fun '(_, id') => after_texts H id' ts)
  end.
(** all names (own list) *)
Definition names : list (list Z) := map sbytes
  ["_NP.ACK"; "_NP.HANDSHAKE"; "_NP.JOIN.REQUEST"; "_NP.LEAVE.REQUEST"; "_NP.PING.REQUEST"; "_NP.NODES.PIGGY"; "_NP.NODES.UPDATE"; "_NP.PHEROMONE.UPDATE";
   "_NP.MESSAGE.RECEIVER.TOKEN"; "_NP.MESSAGE.SENDER.TOKEN"; "_NP.MESSAGE.AUTHENTICATE"; "_NP.MESSAGE.AUTHENICATION.REPLY"; "_NP.MESSAGE.AUTHORIZE"; "_NP.MESSAGE.AUTHORIZATION.REPLY";
   "_NP.MESSAGE.ACCOUNT"; "_NP.SYSINFO.DATA"]%string.
(** a C string: the bytes before the first zero *)
Fixpoint c_string (l : list Z) : list Z := match l with [] => [] | c :: l => if c =? 0 then [] else c :: c_string l end.
(** what a call has to answer: a name whose hash is the subject (np_ok, 0), or the subject in hexadecimal digits
    (np_not_implemented, 3); np_invalid_argument (5) for buffers below 64 bytes or none *)
Definition right_answer (H : list Z -> key) (e : key * Z * bool * sresult) : Prop :=
  let '(subject, len, null, r) := e in
  ((len < 64 \/ null = true) /\ r = Answer 5 []) \/
  64 <= len /\ null = false /\ ((exists name text, In name names /\ H name = subject /\ r = Answer 0 text /\ Z.of_nat (length text) = len /\ c_string text = name) \/
  ((forall name, In name names -> H name <> subject) /\ ((65 <= len /\ r = Answer 3 (np_dhkey_str subject ++ [0])) \/ (len = 64 /\ r = Overrun)))).
Definition by_thread (a : nat) (e : sev) : Prop := match e with SCall b _ _ _ | SStep b => b = a end.
