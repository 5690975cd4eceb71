(** Vocabulary for the web server (C105-C107). *)
From Verif Require Import Base Data_Model Http_Model.
Open Scope Z_scope.

(** characters of a text, not the end of a string *)
Definition chars_ok (s : list Z) : Prop := Forall (fun c => 1 <= c <= 255) s.
(** ** Percent-encoding (RFC 3986, 2.1): every % followed by two hexadecimal digits is the character with this number *)
Definition is_hex (c : Z) : Prop := 48 <= c <= 57 \/ 65 <= c <= 70 \/ 97 <= c <= 102.
Definition hex_value (c : Z) : Z := if 97 <=? c then c - 87 else if 65 <=? c then c - 55 else c - 48.
Definition is_hexb (c : Z) : bool := (48 <=? c) && (c <=? 57) || (65 <=? c) && (c <=? 70) || (97 <=? c) && (c <=? 102).
Fixpoint percent (s : list Z) : list Z :=
  match s with
  | [] => []
  | c :: t =>
    match t with
    | a :: b :: u => if (c =? 37) && is_hexb a && is_hexb b then 16 * hex_value a + hex_value b :: percent u else c :: percent t
    | _ => c :: percent t
    end
  end.

(** ** Arguments: name=value, separated by & *)
Fixpoint query (args : list (list Z * list Z)) : list Z :=
  match args with
  | [] => []
  | (k, v) :: args => k ++ [61] ++ v ++ match args with [] => [] | _ => 38 :: query args end
  end.
Definition plain (s : list Z) : Prop := Forall (fun c => c <> 38 /\ c <> 61) s.

(** ** Callbacks *)
(** the callback registered first for a method and a path *)
Fixpoint registered (rs : list (Z * list Z * nat)) (method : Z) (path : list Z) : option nat :=
  match rs with
  | [] => None
  | (m, p, cb) :: rs => if m =? method then if list_eq_dec Z.eq_dec p path then Some cb else registered rs method path else registered rs method path
  end.
(** methods are numbers below 100, paths short enough for the key *)
Definition short (method : Z) (path : list Z) : Prop := 0 <= method < 100 /\ (length path <= 124)%nat.
(** bytes the hooks take in the text for unknown paths *)
Definition listed (hooks : list (list Z * nat)) : Z := fold_right (fun h n => Z.of_nat (length (fst h)) + 3 + n) 0 hooks.

(** ** Status: names in the order of np_http.h with their numbers in HTTP *)
Inductive status := NO_RESPONSE | CONTINUE | OK | ACCEPTED | CREATED | NO_CONTENT | PARTIAL_CONTENT | MULTI_STATUS | MOVED_TEMPORARILY
  | NOT_MODIFIED | BAD_REQUEST | UNAUTHORIZED | FORBIDDEN | NOT_FOUND | METHOD_NOT_ALLOWED | REQUEST_TIME_OUT | GONE | REQUEST_URI_TOO_LONG
  | LOCKED | INTERNAL_SERVER_ERROR | NOT_IMPLEMENTED | SERVICE_UNAVAILABLE.
(** the value of the enumerator *)
Definition index (s : status) : nat :=
  match s with
  | NO_RESPONSE => 0 | CONTINUE => 1 | OK => 2 | ACCEPTED => 3 | CREATED => 4 | NO_CONTENT => 5 | PARTIAL_CONTENT => 6 | MULTI_STATUS => 7
  | MOVED_TEMPORARILY => 8 | NOT_MODIFIED => 9 | BAD_REQUEST => 10 | UNAUTHORIZED => 11 | FORBIDDEN => 12 | NOT_FOUND => 13
  | METHOD_NOT_ALLOWED => 14 | REQUEST_TIME_OUT => 15 | GONE => 16 | REQUEST_URI_TOO_LONG => 17 | LOCKED => 18
  | INTERNAL_SERVER_ERROR => 19 | NOT_IMPLEMENTED => 20 | SERVICE_UNAVAILABLE => 21
  end.
Definition http_number (s : status) : Z :=
  match s with
  | NO_RESPONSE => 0 | CONTINUE => 100 | OK => 200 | CREATED => 201 | ACCEPTED => 202 | NO_CONTENT => 204 | PARTIAL_CONTENT => 206
  | MULTI_STATUS => 207 | MOVED_TEMPORARILY => 302 | NOT_MODIFIED => 304 | BAD_REQUEST => 400 | UNAUTHORIZED => 401 | FORBIDDEN => 403
  | NOT_FOUND => 404 | METHOD_NOT_ALLOWED => 405 | REQUEST_TIME_OUT => 408 | GONE => 410 | REQUEST_URI_TOO_LONG => 414 | LOCKED => 423
  | INTERNAL_SERVER_ERROR => 500 | NOT_IMPLEMENTED => 501 | SERVICE_UNAVAILABLE => 503
  end.
