(** C12: the simple cache is a first-write-wins map. *)
From Verif Require Import Base Scache_Model Scache_Spec.

Section P.
  Context {V : Type}.
  Variable siphash : list Z -> list Z -> Z.
  Implicit Types t : @table V.

  Fixpoint cache_exec t (os : list (cache_op V)) : outcome (list (cache_answer V) * table) :=
    match os with
    | [] => Ok ([], t)
    | CGet k :: os' => obind (cache_get siphash t (Some k)) (fun v => obind (cache_exec t os') (fun '(rs, t') => Ok (RGet v :: rs, t')))
    | CAdd k v :: os' => obind (cache_add siphash t (Some k) v) (fun '(b, t1) => obind (cache_exec t1 os') (fun '(rs, t') => Ok (RAdd b :: rs, t')))
    end.

  Lemma bytes_eqb_spec a b : bytes_eqb a b = true <-> a = b.
  Proof.
    revert b. induction a as [|x a IH]; destruct b as [|y b]; cbn [bytes_eqb]; split; intros H; try discriminate; auto.
    - apply andb_true_iff in H. destruct H as [H1 H2]. apply Z.eqb_eq in H1. apply IH in H2. congruence.
    - injection H as -> ->. rewrite Z.eqb_refl. apply IH. auto.
  Qed.

  Definition idx (t : @table V) k := Z.to_nat (Z.land (u16 (siphash (seed t) k)) 65535 mod bucket_size t).
  Definition tinv t (m : wmap V) := 0 < bucket_size t /\ length (buckets t) = Z.to_nat (bucket_size t) /\
    forall k, length k = FPB -> m k = lookup (nth (idx t k) (buckets t) []) k.

  Lemma idx_lt t k : 0 < bucket_size t -> (idx t k < Z.to_nat (bucket_size t))%nat.
  Proof. intros H. unfold idx. pose proof (Z.mod_pos_bound (Z.land (u16 (siphash (seed t) k)) 65535) (bucket_size t) H). lia. Qed.
  Lemma lookup_snoc (b : list (@item V)) k k' v : lookup (b ++ [(k, v)]) k' =
    match lookup b k' with Some w => Some w | None => if bytes_eqb k k' then Some v else None end.
  Proof. induction b as [|[k0 v0] b IH]; cbn; auto. destruct (bytes_eqb k0 k'); auto. Qed.

  Lemma exec_ok os : forall t m, tinv t m -> (forall k, In k (map (fun o => match o with CGet k => k | CAdd k _ => k end) os) -> length k = FPB) ->
    exists rs t' m', cache_exec t os = Ok (rs, t') /\ cache_run m os rs m' /\ tinv t' m'.
  Proof.
    induction os as [|o os IH]; intros t m I Hk.
    - exists [], t, m. split; auto. split; auto. constructor.
    - assert (Hk' : forall k, In k (map (fun o => match o with CGet k => k | CAdd k _ => k end) os) -> length k = FPB) by (intros; apply Hk; right; auto).
      pose proof I as (Hb & Hl & Hm).
      destruct o as [k|k v]; cbn [cache_exec];
        (assert (Lk : length k = FPB) by (apply Hk; left; auto));
        (assert (Ek : key_bytes k = Ok k) by (unfold key_bytes; rewrite Lk, Nat.ltb_irrefl, <- Lk, firstn_all; auto));
        (assert (Ei : bucket_of siphash t k = Ok (idx t k)) by (unfold bucket_of; rewrite (proj2 (Z.eqb_neq _ 0)) by lia; auto)).
      + unfold cache_get. rewrite Ek. cbn [obind]. rewrite Ei. cbn [obind]. rewrite <- Hm by auto.
        destruct (IH t m I Hk') as (rs & t' & m' & E & R & I'). rewrite E. cbn [obind].
        do 3 eexists. split; [reflexivity|]. split; eauto. constructor; auto.
      + unfold cache_add. rewrite Ek. cbn [obind]. rewrite Ei. cbn [obind].
        destruct (lookup (nth (idx t k) (buckets t) []) k) as [w|] eqn:El; cbn [obind].
        * destruct (IH t m I Hk') as (rs & t' & m' & E & R & I'). rewrite E. cbn [obind].
          do 3 eexists. split; [reflexivity|]. split; eauto. eapply cr_add_old; eauto. rewrite Hm by auto. eauto.
        * set (t1 := mkTable _ _ _).
          assert (I1 : tinv t1 (wadd m k v)).
          { split; [auto|]. split; [cbn; rewrite upd_length; auto|]. intros k' Hk''. change (idx t1 k') with (idx t k').
            unfold t1, wadd. cbn [buckets].
            pose proof (idx_lt t k Hb). pose proof (idx_lt t k' Hb).
            destruct (Nat.eq_dec (idx t k') (idx t k)) as [Ee|Ee].
            - rewrite Ee, upd_nth_eq by lia. rewrite lookup_snoc.
              destruct (list_eq_dec Z.eq_dec k' k) as [->|Hn].
              + rewrite El. rewrite (proj2 (bytes_eqb_spec k k)); auto.
              + rewrite Hm, Ee by auto. destruct (lookup _ k'); auto.
                destruct (bytes_eqb k k') eqn:Eb; auto. apply bytes_eqb_spec in Eb. congruence.
            - rewrite upd_nth_neq by auto. destruct (list_eq_dec Z.eq_dec k' k); [congruence|]. auto. }
          destruct (IH t1 _ I1 Hk') as (rs & t' & m' & E & R & I'). rewrite E. cbn [obind].
          do 3 eexists. split; [reflexivity|]. split; eauto. apply cr_add_new; eauto. rewrite Hm; auto.
  Qed.
End P.

(** For every hash function, seed, bucket count from 1 to 65535 and history over 32 byte keys: no
    failure, and all answers are those of a write-once map that starts empty. *)
Theorem C12_first_write_wins : forall (V : Type) (siphash : list Z -> list Z -> Z) size sd (os : list (cache_op V)),
  0 < size < 65536 ->
  (forall k, In k (map (fun o => match o with CGet k => k | CAdd k _ => k end) os) -> length k = 32%nat) ->
  exists rs t m, cache_exec siphash (cache_init size sd) os = Ok (rs, t) /\ cache_run (fun _ => None) os rs m.
Proof.
  intros V siphash size sd os Hs Hk.
  destruct (exec_ok siphash os (cache_init size sd) (fun _ => None)) as (rs & t' & m' & E & R & _); eauto.
  split; [cbn; lia|]. split; [apply repeat_length|]. intros k _. cbn.
  destruct (nth_in_or_default (idx (V:=V) siphash (cache_init size sd) k) (repeat (@nil (@item V)) (Z.to_nat size)) []) as [Hi| ->]; auto.
  apply repeat_spec in Hi. rewrite Hi. auto.
Qed.

(** Only the first 32 bytes of a key count. *)
Theorem C12_key_prefix_decides : forall (V : Type) (siphash : list Z -> list Z -> Z) (t : @table V) k k' v,
  (32 <= length k)%nat -> (32 <= length k')%nat -> firstn 32 k = firstn 32 k' ->
  cache_get siphash t (Some k) = cache_get siphash t (Some k') /\
  cache_add siphash t (Some k) v = cache_add siphash t (Some k') v.
Proof.
  intros V siphash t k k' v H1 H2 E. unfold cache_get, cache_add, key_bytes, FPB.
  rewrite (proj2 (Nat.ltb_ge _ _) H1), (proj2 (Nat.ltb_ge _ _) H2). rewrite E. auto.
Qed.

(** A missing key is refused by the assertion, a table without buckets divides by zero. *)
Theorem C12_contract : forall (V : Type) (siphash : list Z -> list Z -> Z) (t : @table V) k v,
  cache_get siphash t None = Abort /\ cache_add siphash t None v = Abort /\
  (bucket_size t = 0 -> cache_get siphash t (Some k) = UB).
Proof.
  intros. split; auto. split; auto. intros H. unfold cache_get, key_bytes, bucket_of. rewrite H.
  destruct (length k <? FPB)%nat; auto.
Qed.

(** All keys in one bucket: collisions are resolved by the chain. *)
Example first_write_wins_example :
  let k1 := repeat 1 32 in let k2 := repeat 2 32 in
  let os := [CAdd k1 10; CAdd k2 20; CAdd k1 30; CGet k1; CGet k2; CGet (repeat 3 32)] in
  match cache_exec (fun _ _ => 65535) (cache_init 127 []) os with
  | Ok (rs, _) => rs = [RAdd true; RAdd true; RAdd false; RGet (Some 10); RGet (Some 20); RGet None]
  | _ => False
  end.
Proof. vm_compute. reflexivity. Qed.

Print Assumptions C12_first_write_wins.
Print Assumptions C12_key_prefix_decides.
Print Assumptions C12_contract.
