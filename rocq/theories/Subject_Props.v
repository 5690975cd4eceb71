(** C86: subjects and ids made from texts. *)
From Coq Require Import String Ascii.
From Verif Require Import Base Dhkey_Model Subject_Model Subject_Spec Subject_Proofs.
From Coq Require Import List.
Open Scope Z_scope.
Open Scope list_scope.

(** C86: in a field set to zero the subject of a text is its hash, the id np_get_id computes, on every node; so two texts
    have the same subject only if they have the same hash. *)
Theorem C86_subject_is_id_partial : forall H text, hashes H ->
  np_generate_subject H (repeat 0 8) text (Z.of_nat (length text)) = Ok (0, H text) /\ np_get_id H text (Z.of_nat (length text)) = Ok (H text).
Proof.
  intros H text HH. rewrite generate, xor_zero by apply HH. split; [reflexivity|]. unfold np_get_id. rewrite Z.ltb_irrefl, Nat2Z.id, firstn_all. reflexivity.
Qed.
(** a hash for the examples: sums of the bytes *)
Definition toy (m : list Z) : key := u32 (fold_right (fun c s => c + 257 * s) 1 m) :: repeat (u32 (fold_right Z.add 0 m)) 7.
Lemma toy_hash : hashes toy.
Proof. intros m. split; [reflexivity|]. assert (W : forall z, is_word (u32 z)) by (intros z; unfold is_word, u32; apply Z.mod_pos_bound; lia). constructor; [apply W|]. cbn [repeat]. repeat (constructor; [apply W|]). constructor. Qed.
Example C86_ex : hashes toy /\ toy (sbytes "a") <> toy (sbytes "b").
Proof. split; [exact toy_hash|]. intros E. vm_compute in E. discriminate E. Qed.

(** C86: a field that already holds something is the seed: different contents give different subjects for the same text.
    The field has to be set to zero by the caller, which the documentation does not say. *)
Theorem C86_field_must_be_cleared_refuted : forall H id id' text r r', hashes H -> length id = 8%nat -> length id' = 8%nat ->
  np_generate_subject H id text (Z.of_nat (length text)) = Ok (0, r) -> np_generate_subject H id' text (Z.of_nat (length text)) = Ok (0, r') -> id <> id' -> r <> r'.
Proof.
  intros H id id' text r r' HH L L' E E' N R. rewrite generate in E, E'. injection E as <-. injection E' as <-. apply N.
  rewrite <- (xor_twice (H text) id) by (rewrite L; apply HH). rewrite R. apply xor_twice. rewrite L'. apply HH.
Qed.
(** C86: what a sequence of texts makes: the exclusive or of their hashes *)
Theorem C86_sequence : forall H id texts, after_texts H id texts = Ok (fold_right (fun t k => np_dhkey_xor (H t) k) id texts).
Proof. intros. apply texts_xor. Qed.
(** C86 fails for subjects built from several texts: their order does not matter, and a text used twice disappears; so
    different sequences name the same subject for every hash function. *)
Theorem C86_order_refuted : forall H id texts texts', Permutation texts texts' -> after_texts H id texts = after_texts H id texts'.
Proof. intros H id ts ts' P. rewrite !texts_xor. f_equal. apply texts_permutation. exact P. Qed.
Theorem C86_twice_refuted : forall H id text texts, hashes H -> length id = 8%nat -> after_texts H id (text :: text :: texts) = after_texts H id texts.
Proof.
  intros H id text texts HH L. rewrite !texts_xor. cbn [fold_right]. f_equal. apply xor_twice. rewrite (proj1 (HH text)).
  induction texts as [|t ts IH]; cbn [fold_right]; [symmetry; exact L|]. rewrite xor_length by (rewrite <- IH; apply HH). symmetry. apply HH.
Qed.
Example C86_order_ex : after_texts toy zero_key [sbytes "news"; sbytes "room"] = after_texts toy zero_key [sbytes "room"; sbytes "news"] /\
  after_texts toy zero_key [sbytes "news"; sbytes "news"] = Ok zero_key.
Proof. split; vm_compute; reflexivity. Qed.
(** C86 fails for length 0, documented as "string is expected to be null-terminated": all texts get the same id. *)
Theorem C86_length_zero_refuted : forall H mem mem', np_get_id H mem 0 = np_get_id H mem' 0 /\ np_get_id H mem 0 = Ok (H []).
Proof.
  intros H mem mem'. assert (X : forall m, np_get_id H m 0 = Ok (H [])) by (intros m; unfold np_get_id; destruct (Z.ltb_spec (Z.of_nat (length m)) 0); [lia|reflexivity]). rewrite !X. auto.
Qed.

(** C86: names of the subjects of the node itself are found again: by every call of one thread, and of any threads with any
    interleaving after one call of one thread has returned; for all other subjects the caller gets the hexadecimal digits.
    Missing: first calls of several threads, buffers of 64 bytes (refuted below; [right_answer] includes the overrun). *)
Theorem C86_names_partial : forall H a es1 es2 w1 w2, hashes H -> Forall (by_thread a) es1 ->
  ssteps H regen0 es1 = Some w1 -> (exists s l r, In (s, l, false, r) (r_log w1) /\ 64 <= l) \/ es2 = [] ->
  ssteps H w1 es2 = Some w2 -> Forall (right_answer H) (r_log w2).
Proof.
  intros H a es1 es2 w1 w2 HH F E1 D E2. pose proof (lone_steps H HH a es1 _ _ (lone0 H a) F E1) as G. destruct D as [(s & l & r & Hin & Hl) | ->].
  - apply (made_steps H es2 w1 w2); [|exact E2]. exact (lone_made H a w1 s l r G Hin Hl).
  - injection E2 as <-. apply G.
Qed.
Definition call_of (a : nat) (name : list Z) (n : nat) : list sev := SCall a (toy name) 65 false :: repeat (SStep a) n.
Definition final (es : list sev) : regen := match ssteps toy regen0 es with Some w => w | None => regen0 end.
Example C86_names_ex : Forall (by_thread 0) (call_of 0 (sbytes "_NP.PING.REQUEST") 19) /\
  map (fun e => match e with (_, _, _, Answer r text) => (r, c_string text) | _ => (9, []) end) (r_log (final (call_of 0 (sbytes "_NP.PING.REQUEST") 19 ++ call_of 1 (sbytes "_NP.ACK") 2))) = [(0, sbytes "_NP.ACK"); (0, sbytes "_NP.PING.REQUEST")].
Proof. split; [unfold call_of; repeat constructor|vm_compute; reflexivity]. Qed.
(** C86 fails when two threads make their first call at the same time: both fill the table, the hashes cancel, and from then
    on no call of any thread finds a name again; the subject of zeros is called "_NP.ACK". *)
Definition race : list sev := [SCall 0 (toy (sbytes "_NP.ACK")) 65 false; SCall 1 (toy (sbytes "_NP.ACK")) 65 false; SStep 0; SStep 1] ++ repeat (SStep 0) 18 ++ repeat (SStep 1) 18.
Theorem C86_first_calls_refuted : exists es w, ssteps toy regen0 es = Some w /\ r_flag w = true /\
  (exists e, In e (r_log w) /\ ~ right_answer toy e) /\
  forall subject len, 65 <= len -> subject <> repeat 0 8 -> look w subject len = Answer 3 (np_dhkey_str subject ++ [0]).
Proof.
  exists race, (final race). split; [unfold final; destruct (ssteps toy regen0 race) eqn:E; [reflexivity|vm_compute in E; discriminate E]|]. split; [vm_compute; reflexivity|]. split.
  - exists (toy (sbytes "_NP.ACK"), 65, false, Answer 3 (np_dhkey_str (toy (sbytes "_NP.ACK")) ++ [0])). split; [vm_compute; left; reflexivity|].
    intros [[[X|X] _]|(_ & _ & [(n & t & _ & _ & X & _)|[X _]])]; [lia|discriminate X|discriminate X|]. apply (X (sbytes "_NP.ACK")); [left; reflexivity|reflexivity].
  - intros subject len Hl N. assert (T : r_table (final race) = repeat (repeat 0 8) 16) by (vm_compute; reflexivity). unfold look. rewrite T.
    assert (S : forall ns n, search subject ns (repeat (repeat 0 8) n) = None).
    { induction ns as [|x ns IH]; destruct n; cbn [search repeat]; try reflexivity. unfold key_eqb. destruct (list_eq_dec Z.eq_dec subject [0; 0; 0; 0; 0; 0; 0; 0]) as [E|_]; [contradiction|]. apply IH. }
    rewrite S. destruct (Z.ltb_spec len 65); [lia|reflexivity].
Qed.
(** C86 fails for a buffer of the 64 bytes the documentation asks for: for any subject without a name a byte is written
    behind it. *)
Theorem C86_buffer_refuted : forall w subject, search subject known_subjects (r_table w) = None -> look w subject 64 = Overrun.
Proof. intros w subject E. unfold look. rewrite E. reflexivity. Qed.
Example C86_buffer_ex : search (toy (sbytes "chat")) known_subjects (r_table (final (call_of 0 (sbytes "_NP.ACK") 19))) = None.
Proof. vm_compute. reflexivity. Qed.

Print Assumptions C86_subject_is_id_partial.
Print Assumptions C86_field_must_be_cleared_refuted.
Print Assumptions C86_sequence.
Print Assumptions C86_order_refuted.
Print Assumptions C86_twice_refuted.
Print Assumptions C86_length_zero_refuted.
Print Assumptions C86_names_partial.
Print Assumptions C86_first_calls_refuted.
Print Assumptions C86_buffer_refuted.
