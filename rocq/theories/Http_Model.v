(** The web server of the framework: framework/http/urldecode.c, framework/http/np_http.c (arguments of a request, callbacks, answers).
    Not modelled: htparse.c, evhtp.c, sockets, headers.  Characters are their values 0..255; isxdigit of a negative char is false (glibc). *)
From Coq Require Import String.
From Verif Require Import Base Data_Model Uuid_Model.
Open Scope string_scope.
Open Scope list_scope.
Open Scope Z_scope.

(** ** urldecode.c:13-50 urlDecode *)
Definition hexd (c : Z) : bool := (48 <=? c) && (c <=? 57) || (65 <=? c) && (c <=? 70) || (97 <=? c) && (c <=? 102).
Definition hexv (c : Z) : Z := if c <=? 57 then c - 48 else if c <=? 70 then c - 55 else c - 87.
(** strnlen; [None]: runs out of the memory *)
Fixpoint zero_at (m : list Z) : option nat :=
  match m with [] => None | c :: m => if c =? 0 then Some O else option_map S (zero_at m) end.
Inductive step_end := Return (m : list Z) | Go (changed : bool) (m : list Z).
(** 25-45: the body of the for loop at [i].  The bytes after the moved ones stay. *)
Definition url_step (i : nat) (m : list Z) : run step_end :=
  match nth_error m i, nth_error m (i + 1) with
  | Some c, Some c1 =>
    if c =? 37 then
      if c1 =? 0 then Done (Return m)
      else if hexd c1 then
        match nth_error m (i + 2) with
        | None => Undef
        | Some c2 =>
          if hexd c2 then
            match zero_at (skipn (i + 3) m) with
            | None => Undef
            | Some z => Done (Go true (firstn i m ++ [16 * hexv c1 + hexv c2] ++ firstn (z + 1) (skipn (i + 3) m) ++ skipn (i + z + 2) m))
            end
          else Done (Go false m)
        end
      else Done (Go false m)
    else Done (Go false m)
  | _, _ => Undef
  end.
(** the for loop: [n] positions from [i] *)
Fixpoint url_pass (n i : nat) (changed : bool) (m : list Z) : run step_end :=
  match n with
  | O => Done (Go changed m)
  | S n => rbind (url_step i m) (fun r => match r with Return m => Done (Return m) | Go c m => url_pass n (S i) (changed || c) m end)
  end.
(** the while loop; [fuel] runs out: it would go on *)
Fixpoint url_rounds (fuel len : nat) (m : list Z) : run (list Z) :=
  match fuel with
  | O => Hangs
  | S f => rbind (url_pass len 0 false m) (fun r => match r with Return m => Done m | Go true m => url_rounds f len m | Go false m => Done m end)
  end.
(** [text]: the bytes before the end of str; [junk]: the byte of the memory that strncpy does not write *)
Definition url_decode (text : list Z) (len : nat) (junk : Z) : run (list Z) :=
  url_rounds (len + 2) len (firstn len (text ++ repeat 0 len) ++ [junk]).
(** what a caller reads as a string *)
Definition c_string (m : list Z) : run (list Z) := match zero_at m with Some z => Done (firstn z m) | None => Undef end.

(** ** np_http.c:147-182 _np_http_query_args: strsep at & and = (data without zero bytes) *)
Fixpoint tokens (s : list Z) : list (list Z) :=
  match s with
  | [] => [[]]
  | c :: s => if (c =? 38) || (c =? 61) then [] :: tokens s else match tokens s with t :: ts => (c :: t) :: ts | [] => [[c]] end
  end.
Fixpoint pairs (ts : list (list Z)) : list (list Z * list Z) :=
  match ts with k :: v :: ts => (k, v) :: pairs ts | _ => [] end.
(** a tree with strings as keys: np_tree.c:127-139, 333-354 (an existing entry stays).  Simplified: entries in the order of insertion. *)
Section Tree.
  Context {V : Type}.
  Definition find_str (l : list (list Z * V)) (k : list Z) : option V :=
    match find (fun e => if list_eq_dec Z.eq_dec (fst e) k then true else false) l with Some e => Some (snd e) | None => None end.
  Definition insert_str (l : list (list Z * V)) (k : list Z) (v : V) : list (list Z * V) :=
    match find_str l k with Some _ => l | None => l ++ [(firstn 255 k, v)] end.
End Tree.
Definition query_args (s : list Z) : list (list Z * list Z) := fold_left (fun l e => insert_str l (fst e) (snd e)) (pairs (tokens s)) [].

(** ** Callbacks *)
(** np_http.c:252-257, 756-757: the key, 127 characters *)
Definition hook_key (method : Z) (path : list Z) : list Z := firstn 127 (unsigned 3 method ++ 58 :: path).
(** np_http.c:748-768 _np_add_http_callback; a callback is known by a number *)
Definition add_callback (hooks : list (list Z * nat)) (r : Z * list Z * nat) : list (list Z * nat) :=
  match r with (method, path, cb) => insert_str hooks (hook_key method path) cb end.
Definition add_callbacks (rs : list (Z * list Z * nat)) : list (list Z * nat) := fold_left add_callback rs [].

(** np_http.c:285-303: the text for a path that is not known, into 8000 bytes on the stack; [len] is uint32_t.  The list of what is written. *)
Definition not_found_begin (key : list Z) : list Z :=
  text "{ ""status"":""not_found"", ""requestd_path"": """ ++ key ++ text """, ""available_paths"": [".
Definition not_found_pieces (hooks : list (list Z * nat)) (key : list Z) : list (list Z) :=
  not_found_begin key :: map (fun h => [34] ++ fst h ++ [34; 44]) hooks ++ [text "]}"].
(** snprintf(buffer + len, buf_max - len, ...): behind the end of the buffer the size wraps *)
Fixpoint print_all (ps : list (list Z)) (len : Z) (buf : list Z) : run (list Z) :=
  match ps with
  | [] => Done buf
  | p :: ps => if 8000 <? len then Undef else print_all ps (len + Z.of_nat (length p)) (buf ++ firstn (Z.to_nat (7999 - len)) p)
  end.
Inductive reply := Called (cb : nat) | NotFound (body : list Z) | NotImplemented.
(** np_http.c:248-327 _np_http_dispatch; [path]: as in the request, its first character is dropped; htp_method_GET is 0.
    Simplified: the keys of the hooks are listed in the order of registration (the tree sorts them). *)
Definition dispatch (hooks : list (list Z * nat)) (method : Z) (path : list Z) : run reply :=
  let key := hook_key method (tl path) in
  match find_str hooks key with
  | Some cb => Done (Called cb)
  | None => if method =? 0 then rbind (print_all (not_found_pieces hooks key) 0 []) (fun b => Done (NotFound b)) else Done NotImplemented
  end.

(** np_http.c:109-132 http_return_codes: the number sent for a status; np_http.h:19-42 is the enumeration the index is from *)
Definition return_codes : list Z :=
  [0; 100; 200; 201; 202; 204; 206; 207; 302; 304; 400; 401; 403; 404; 405; 408; 410; 414; 423; 500; 501; 503].
(** np_http.c:340-346 *)
Definition sent_code (status : nat) : run Z := match nth_error return_codes status with Some c => Done c | None => Undef end.
