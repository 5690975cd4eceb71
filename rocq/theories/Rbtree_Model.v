(** Red-black trees: include/tree/tree.h (RB_GENERATE_INTERNAL), as used by np_tree and the key cache.

    A node is a Coq node; the parent pointers are replaced by the path from a node to the root (the zipper).  Writing
    through a pointer becomes building a new tree.  Memory of the nodes themselves is not modelled.  A NULL pointer
    that the C code would follow is the outcome [UB]. *)
From Verif Require Import Base.

(** tree.h:291-292 *)
Inductive color := Red | Black.

Section Rb.
Context {A : Type}.

(** tree.h:278-304: rbe_left, rbe_right, rbe_color; [Leaf] is NULL. *)
Inductive tree := Leaf | Node (c : color) (l : tree) (x : A) (r : tree).

(** One step upwards: we are the left (right) child of a parent with this colour, element and other child. *)
Inductive frame :=
| InLeft (c : color) (x : A) (r : tree)
| InRight (c : color) (l : tree) (x : A).

Definition frame_color (f : frame) : color := match f with InLeft c _ _ | InRight c _ _ => c end.

(** The whole tree (RB_ROOT(head)) from a subtree and the path to the root *)
Fixpoint plug (p : list frame) (t : tree) : tree :=
  match p with
  | [] => t
  | InLeft c x r :: p' => plug p' (Node c t x r)
  | InRight c l x :: p' => plug p' (Node c l x t)
  end.

Definition is_red (t : tree) : bool := match t with Node Red _ _ _ => true | _ => false end.

(** [if (elm) RB_COLOR(elm) = RB_BLACK]; for the root in tree.h:428, which is never NULL there *)
Definition blacken (t : tree) : tree :=
  match t with Leaf => Leaf | Node _ l x r => Node Black l x r end.

(** tree.h:389-429 RB_INSERT_COLOR: [elm] is the subtree at the end of path [p].
    Following [gparent] when it is NULL is [UB]. *)
Fixpoint insert_color (p : list frame) (elm : tree) : outcome tree :=
  match p with
  | [] => Ok (blacken elm)
  | f :: p1 =>
      match frame_color f with
      | Black => Ok (blacken (plug p elm))
      | Red =>
          match p1 with
          | [] => UB
          | InLeft _ g u :: p2 =>       (* parent == RB_LEFT(gparent): 394-409; [u] is tmp *)
              if is_red u then
                let parent := match f with InLeft _ x r => Node Black elm x r | InRight _ l x => Node Black l x elm end in
                insert_color p2 (Node Red parent g (blacken u))
              else
                match f, elm with
                | InLeft _ x r, _ => Ok (blacken (plug p2 (Node Black elm x (Node Red r g u))))
                | InRight _ l x, Node _ el ex er =>   (* RB_RIGHT(parent) == elm: 402-407 *)
                    Ok (blacken (plug p2 (Node Black (Node Red l x el) ex (Node Red er g u))))
                | InRight _ _ _, Leaf => UB
                end
          | InRight _ u g :: p2 =>      (* 411-425 *)
              if is_red u then
                let parent := match f with InLeft _ x r => Node Black elm x r | InRight _ l x => Node Black l x elm end in
                insert_color p2 (Node Red (blacken u) g parent)
              else
                match f, elm with
                | InRight _ l x, _ => Ok (blacken (plug p2 (Node Black (Node Red u g l) x elm)))
                | InLeft _ x r, Node _ el ex er =>    (* RB_LEFT(parent) == elm: 418-423 *)
                    Ok (blacken (plug p2 (Node Black (Node Red u g el) ex (Node Red er x r))))
                | InLeft _ _ _, Leaf => UB
                end
          end
      end
  end.

(** tree.h:444-468, one round of RB_REMOVE_COLOR for a left child [elm] of a parent with colour [c], element [x] and
    right child [tmp] that is not red (or was rotated into place).  [inl] : elm := parent, carry on from there;
    [inr]: break. *)
Definition remove_left (c : color) (elm : tree) (x : A) (tmp : tree) : outcome (tree + tree) :=
  match tmp with
  | Leaf => UB
  | Node tc tl tx tr =>
      if negb (is_red tl) && negb (is_red tr) then Ok (inl (Node c elm x (Node Red tl tx tr)))
      else if negb (is_red tr)
      then match tl with      (* 452-460 *)
           | Leaf => UB
           | Node _ oll ox olr =>
               (* now tmp is oleft with colour black, its right child the old tmp, red *)
               Ok (inr (Node c (Node Black elm x oll) ox (Node Black olr tx tr)))
           end
      else Ok (inr (Node c (Node Black elm x tl) tx (blacken tr)))   (* 461-465 *)
  end.

(** tree.h:476-499, the mirror image *)
Definition remove_right (c : color) (tmp : tree) (x : A) (elm : tree) : outcome (tree + tree) :=
  match tmp with
  | Leaf => UB
  | Node tc tl tx tr =>
      if negb (is_red tl) && negb (is_red tr) then Ok (inl (Node c (Node Red tl tx tr) x elm))
      else if negb (is_red tl)
      then match tr with
           | Leaf => UB
           | Node _ orl ox orr => Ok (inr (Node c (Node Black tl tx orl) ox (Node Black orr x elm)))
           end
      else Ok (inr (Node c (blacken tl) tx (Node Black tr x elm)))
  end.

(** tree.h:431-504 RB_REMOVE_COLOR: [elm] (maybe NULL) is the subtree at the end of path [p].
    After a red sibling was rotated up (439-443) the parent is red, so the loop ends with that round.
    The test [RB_LEFT(parent) == elm] cannot tell the children apart if both are NULL; then [tmp] is NULL in either
    branch and the result is [UB], as it is here. *)
Fixpoint remove_color (p : list frame) (elm : tree) : outcome tree :=
  if is_red elm then Ok (plug p (blacken elm)) else
  match p with
  | [] => Ok (blacken elm)
  | InLeft c x tmp :: p' =>
      match tmp with
      | Node Red tl tx tr =>
          obind (remove_left Red elm x tl) (fun res =>
          match res with
          | inl t => Ok (plug p' (Node Black (blacken t) tx tr))
          | inr t => Ok (blacken (plug p' (Node Black t tx tr)))
          end)
      | _ =>
          obind (remove_left c elm x tmp) (fun res =>
          match res with inl t => remove_color p' t | inr t => Ok (blacken (plug p' t)) end)
      end
  | InRight c tmp x :: p' =>
      match tmp with
      | Node Red tl tx tr =>
          obind (remove_right Red tr x elm) (fun res =>
          match res with
          | inl t => Ok (plug p' (Node Black tl tx (blacken t)))
          | inr t => Ok (blacken (plug p' (Node Black tl tx t)))
          end)
      | _ =>
          obind (remove_right c tmp x elm) (fun res =>
          match res with inl t => remove_color p' t | inr t => Ok (blacken (plug p' t)) end)
      end
  end.

(** tree.h:513-516: down to the leftmost element of the non-empty right subtree; the path is accumulated in [p].
    Gives colour, element, right child and path of that element. *)
Fixpoint leftmost (c : color) (l : tree) (x : A) (r : tree) (p : list frame) : color * A * tree * list frame :=
  match l with
  | Leaf => (c, x, r, p)
  | Node c' l' x' r' => leftmost c' l' x' r' (InLeft c x r :: p)
  end.

(** tree.h:506-554 RB_REMOVE of the node with colour [c], children [l], [r] at the end of path [p]: with two children
    its successor takes its place ([e] with the colour of the old node) and the successor's place is closed up. *)
Definition remove_node (p : list frame) (c : color) (l r : tree) : outcome tree :=
  match l, r with
  | Node _ _ _ _, Node rc rl rx rr =>
      let '(ec, e, child, q) := leftmost rc rl rx rr [] in
      let p' := q ++ InRight c l e :: p in
      if is_red (Node ec Leaf e Leaf) then Ok (plug p' child) else remove_color p' child
  | Leaf, _ => match c with Red => Ok (plug p r) | Black => remove_color p r end
  | _, Leaf => match c with Red => Ok (plug p l) | Black => remove_color p l end
  end.

Variable cmp : A -> A -> Z.

(** tree.h:561-568, 582-589: the descent of RB_INSERT and RB_FIND: path and subtree reached; it is NULL if no
    element compares equal *)
Fixpoint descend (elm : A) (t : tree) (p : list frame) : list frame * tree :=
  match t with
  | Leaf => (p, Leaf)
  | Node c l x r =>
      let comp := cmp elm x in
      if comp <? 0 then descend elm l (InLeft c x r :: p)
      else if 0 <? comp then descend elm r (InRight c l x :: p)
      else (p, t)
  end.

(** tree.h:580-590 RB_FIND *)
Definition find (elm : A) (t : tree) : option A :=
  match snd (descend elm t []) with Node _ _ x _ => Some x | Leaf => None end.

(** tree.h:593-606 RB_NFIND: [res] is the accumulated result *)
Fixpoint nfind (elm : A) (t : tree) (res : option A) : option A :=
  match t with
  | Leaf => res
  | Node _ l x r =>
      let comp := cmp elm x in
      if comp <? 0 then nfind elm l (Some x)
      else if 0 <? comp then nfind elm r res
      else Some x
  end.

(** tree.h:557-577 RB_INSERT: the new tree, and the element that was in the way *)
Definition insert (elm : A) (t : tree) : outcome (tree * option A) :=
  match descend elm t [] with
  | (_, Node _ _ x _) => Ok (t, Some x)
  | (p, Leaf) => obind (insert_color p (Node Red Leaf elm Leaf)) (fun t' => Ok (t', None))
  end.

(** RB_FIND followed by RB_REMOVE of what was found (np_tree.c:254-282, np_keycache.c:345-360) *)
Definition find_remove (elm : A) (t : tree) : outcome (tree * option A) :=
  match descend elm t [] with
  | (p, Node c l x r) => obind (remove_node p c l r) (fun t' => Ok (t', Some x))
  | (_, Leaf) => Ok (t, None)
  end.

(** RB_FIND followed by a change of the found element in place (np_tree.c:463-474) *)
Definition find_update (elm : A) (f : A -> A) (t : tree) : tree * option A :=
  match descend elm t [] with
  | (p, Node c l x r) => (plug p (Node c l (f x) r), Some x)
  | (_, Leaf) => (t, None)
  end.

(** tree.h:650-659 RB_MIN followed by RB_REMOVE, as in np_tree_clear (np_tree.c:284-291) *)
Definition remove_min (t : tree) : outcome (option (A * tree)) :=
  match t with
  | Leaf => Ok None
  | Node c l x r =>
      let '(ec, e, child, q) := leftmost c l x r [] in
      obind (remove_node q ec Leaf child) (fun t' => Ok (Some (e, t')))
  end.

(** The order in which RB_FOREACH (RB_MIN, RB_NEXT; tree.h:609-628, 673-674) visits the elements *)
Fixpoint elements (t : tree) : list A :=
  match t with Leaf => [] | Node _ l x r => elements l ++ x :: elements r end.

End Rb.
Arguments tree : clear implicits.
Arguments frame : clear implicits.
