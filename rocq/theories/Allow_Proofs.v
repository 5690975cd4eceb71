(** Proofs about the callbacks of a channel. *)
From Verif Require Import Base Allow_Model Allow_Spec.

Section P.
  Context {tok : Type}.
  Definition cb (d : option (option (callback tok))) : option (callback tok) := match d with Some o => o | None => None end.
  Lemma set_some (f g : callback tok) : set_direction (Some (Some f)) g = (false, Some (Some f)). Proof. reflexivity. Qed.
  Lemma in_kept l : forall c : channel tok, (forall f, inbound c = Some (Some f) -> inbound (fold_left perform l c) = Some (Some f)) /\
    (inbound c = Some None -> inbound (fold_left perform l c) = Some (first_given l)) /\ (inbound c = None -> cb (inbound (fold_left perform l c)) = given_in l).
  Proof.
    induction l as [|x l IH]; intros c; cbn [fold_left]; [split; [auto|split; [auto|intros ->; reflexivity]]|].
    assert (Q : inbound (perform c x) = match x with Receive => match inbound c with None => Some None | d => d end | Send => inbound c | Decide f => snd (set_direction (inbound c) f) end).
    { destruct x; cbn; auto. unfold np_set_mx_authorize_cb. destruct (set_direction (inbound c) f) as [a i]. destruct (set_direction (outbound c) f) as [b o]. reflexivity. }
    destruct (IH (perform c x)) as (A & B & C). split; [|split].
    - intros f E. apply A. rewrite Q, E. destruct x; reflexivity.
    - intros E. destruct x; cbn [first_given]; [apply B; rewrite Q, E; reflexivity|apply B; rewrite Q, E; reflexivity|]. apply A. rewrite Q, E. reflexivity.
    - intros E. destruct x; cbn [given_in]; [|apply C; rewrite Q, E; reflexivity|apply C; rewrite Q, E; reflexivity]. rewrite B by (rewrite Q, E; reflexivity). reflexivity.
  Qed.
  Lemma out_kept l : forall c : channel tok, (forall f, outbound c = Some (Some f) -> outbound (fold_left perform l c) = Some (Some f)) /\
    (outbound c = Some None -> outbound (fold_left perform l c) = Some (first_given l)) /\ (outbound c = None -> cb (outbound (fold_left perform l c)) = given_out l).
  Proof.
    induction l as [|x l IH]; intros c; cbn [fold_left]; [split; [auto|split; [auto|intros ->; reflexivity]]|].
    assert (Q : outbound (perform c x) = match x with Send => match outbound c with None => Some None | d => d end | Receive => outbound c | Decide f => snd (set_direction (outbound c) f) end).
    { destruct x; cbn; auto. unfold np_set_mx_authorize_cb. destruct (set_direction (inbound c) f) as [a i]. destruct (set_direction (outbound c) f) as [b o]. reflexivity. }
    destruct (IH (perform c x)) as (A & B & C). split; [|split].
    - intros f E. apply A. rewrite Q, E. destruct x; reflexivity.
    - intros E. destruct x; cbn [first_given]; [apply B; rewrite Q, E; reflexivity|apply B; rewrite Q, E; reflexivity|]. apply A. rewrite Q, E. reflexivity.
    - intros E. destruct x; cbn [given_out]; [apply C; rewrite Q, E; reflexivity| |apply C; rewrite Q, E; reflexivity]. rewrite B by (rewrite Q, E; reflexivity). reflexivity.
  Qed.
  Lemma allowed_after (global : callback tok) l t : allowed global (after l) t = match asked l with Some f => f t || global t | None => global t end.
  Proof.
    unfold allowed, asked, after. destruct (in_kept l unused) as (_ & _ & I). destruct (out_kept l unused) as (_ & _ & O). specialize (I eq_refl). specialize (O eq_refl). rewrite <- I, <- O.
    destruct (inbound _) as [[f|]|]; destruct (outbound _) as [[g|]|]; cbn [cb]; try reflexivity; try (destruct (f t); reflexivity); destruct (g t); reflexivity.
  Qed.
  Lemma opened_in l : forall c : channel tok, inbound (fold_left perform l c) <> None <-> inbound c <> None \/ In Receive l.
  Proof.
    induction l as [|x l IH]; intros c; cbn [fold_left In]; [tauto|]. rewrite IH. destruct x as [| |g]; cbn [perform].
    - cbn. destruct (inbound c); split; auto; left; discriminate.
    - cbn. assert (@Send tok <> Receive) by discriminate. tauto.
    - assert (@Decide tok g <> Receive) by discriminate. unfold np_set_mx_authorize_cb. destruct (inbound c) as [[h|]|]; cbn; destruct (set_direction (outbound c) g); cbn; split; intros [A|A]; try (left; congruence); tauto.
  Qed.
  Lemma opened_out l : forall c : channel tok, outbound (fold_left perform l c) <> None <-> outbound c <> None \/ In Send l.
  Proof.
    induction l as [|x l IH]; intros c; cbn [fold_left In]; [tauto|]. rewrite IH. destruct x as [| |g]; cbn [perform].
    - cbn. assert (@Receive tok <> Send) by discriminate. tauto.
    - cbn. destruct (outbound c); split; auto; left; discriminate.
    - assert (@Decide tok g <> Send) by discriminate. unfold np_set_mx_authorize_cb. destruct (set_direction (inbound c) g). destruct (outbound c) as [[h|]|]; cbn; split; intros [A|A]; try (left; congruence); tauto.
  Qed.
End P.
