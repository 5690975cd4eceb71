(** C120: the callback of a channel. *)
From Verif Require Import Base Allow_Model Allow_Spec Allow_Proofs.

(** After any calls: a peer is let in exactly if the callback that was given first after the channel was opened for
    sending (or else for receiving) says yes, or the global one does. *)
Theorem C120_decides : forall (tok : Type) (global : tok -> bool) l t,
  allowed global (after l) t = true <-> global t = true \/ exists f, asked l = Some f /\ f t = true.
Proof.
  intros tok global l t. rewrite allowed_after. destruct (asked l) as [f|].
  - rewrite orb_true_iff. split; [intros [H|H]; eauto|intros [H|(g & E & H)]; auto]. injection E as <-. auto.
  - split; [auto|]. intros [H|(g & E & _)]; [auto|discriminate].
Qed.
(** The call succeeds exactly if the channel is open in a direction for which no callback was given yet. *)
Theorem C120_result : forall (tok : Type) l (f : tok -> bool),
  (fst (np_set_mx_authorize_cb (after l) f) = 0 \/ fst (np_set_mx_authorize_cb (after l) f) = 6) /\
  (fst (np_set_mx_authorize_cb (after l) f) = 0 <-> (In Receive l /\ given_in l = None) \/ (In Send l /\ given_out l = None)).
Proof.
  intros tok l f. destruct (in_kept l unused) as (_ & _ & I). destruct (out_kept l unused) as (_ & _ & O). specialize (I eq_refl). specialize (O eq_refl).
  pose proof (opened_in l unused) as Oi. pose proof (opened_out l unused) as Oo. fold (after l) in *. unfold np_set_mx_authorize_cb, np_ok, np_invalid_operation.
  assert (Ri : inbound (after l) <> None <-> In Receive l) by (rewrite Oi; cbn; tauto). assert (Ro : outbound (after l) <> None <-> In Send l) by (rewrite Oo; cbn; tauto). clear Oi Oo.
  destruct (inbound (after l)) as [[g|]|] eqn:Ei; destruct (outbound (after l)) as [[h|]|] eqn:Eo; cbn [set_direction orb fst cb unused inbound outbound] in *; rewrite <- I, <- O; (split; [auto|]);
    (split; [intros R; try discriminate R|intros R; try reflexivity; exfalso]).
  all: try (left; split; [apply Ri; discriminate|reflexivity]). all: try (right; split; [apply Ro; discriminate|reflexivity]).
  all: destruct R as [[R1 R2]|[R1 R2]]; try discriminate R2.
  all: first [apply (proj2 Ri R1); reflexivity|apply (proj2 Ro R1); reflexivity].
Qed.
(** A callback that was taken for a direction stays: whatever is called afterwards, it is not replaced. *)
Theorem C120_stays : forall (tok : Type) l l2 (f : tok -> bool), (given_out l = Some f -> given_out (l ++ l2) = Some f) /\ (given_out (l ++ l2) = None -> given_in l = Some f -> asked (l ++ l2) = Some f).
Proof.
  intros tok l l2 f.
  assert (F : forall l, first_given l = Some f -> first_given (l ++ l2) = Some f) by (intros l0; induction l0 as [|[| |] l0 IH]; cbn; auto; discriminate).
  assert (Gi : given_in l = Some f -> given_in (l ++ l2) = Some f) by (clear - F; induction l as [|[| |] l IH]; cbn; auto; discriminate).
  split; [clear Gi; induction l as [|[| |] l IH]; cbn; auto; discriminate|]. intros N G. unfold asked. rewrite N. auto.
Qed.
(** FINDING: a callback that says no does not keep a peer out that the global callback lets in, whatever was called. *)
Theorem C120_no_refuted : forall (tok : Type) (global : tok -> bool) l t, global t = true -> allowed global (after l) t = true.
Proof. intros tok global l t H. apply C120_decides. auto. Qed.
(** FINDING: a second call after the channel was opened for sending succeeds and takes the decision away from the
    callback that was given for receiving. *)
Theorem C120_replaced_refuted : forall (tok : Type) (global f g : tok -> bool) t,
  let l := [Receive; Decide f; Send] in
  fst (np_set_mx_authorize_cb (after l) g) = 0 /\ allowed global (after (l ++ [Decide g])) t = g t || global t.
Proof. intros tok global f g t l. split; [reflexivity|]. unfold l. rewrite allowed_after. reflexivity. Qed.
(** FINDING: a callback given before the channel is opened is refused, and the peers of the channel are left to the
    global callback. *)
Theorem C120_too_early_refuted : forall (tok : Type) (global f : tok -> bool) t,
  fst (np_set_mx_authorize_cb (after []) f) = 6 /\ allowed global (after [Decide f; Receive; Send]) t = global t.
Proof. intros tok global f t. split; [reflexivity|]. rewrite allowed_after. reflexivity. Qed.

Example C120_ex : let l := [Receive; Send; Decide (fun x : Z => x =? 3); Decide (fun x => x =? 4)] in
  allowed (fun _ => false) (after l) 3 = true /\ allowed (fun _ => false) (after l) 4 = false /\ fst (np_set_mx_authorize_cb (after [Receive : call Z]) (fun _ => true)) = 0.
Proof. repeat split; reflexivity. Qed.

Print Assumptions C120_decides.
Print Assumptions C120_result.
Print Assumptions C120_stays.
Print Assumptions C120_no_refuted.
Print Assumptions C120_replaced_refuted.
Print Assumptions C120_too_early_refuted.
