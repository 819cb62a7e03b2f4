(** Proofs about the Diffie-Hellman PSI. *)
From Verif Require Import Base Tools_Spec Partition_Model Partition_Proofs Ecdh_Model Ecdh_Spec.

Lemma idxRange_concat n T : (0 < T)%nat -> N.of_nat n * N.of_nat T < 2 ^ 64 ->
  concat (map (idxRange n T) (seq 0 T)) = seq 0 n.
Proof.
  intros HT Hw. pose proof (even_cover (N.of_nat n) (N.of_nat T) ltac:(lia) Hw) as E. rewrite Nat2N.id in E. rewrite <- E.
  unfold ranges. by rewrite Nat2N.id.
Qed.

Lemma idxRange_lt n T t i : (0 < T)%nat -> N.of_nat n * N.of_nat T < 2 ^ 64 -> (t < T)%nat -> i ∈ idxRange n T t -> (i < n)%nat.
Proof.
  intros HT Hw Ht Hi. assert (i ∈ seq 0 n) as H; [|apply elem_of_seq in H; lia].
  rewrite <- (idxRange_concat n T HT Hw). apply elem_of_concat. exists (idxRange n T t). split; [done|].
  apply (elem_of_list_fmap_1 (idxRange n T)). apply elem_of_seq. lia.
Qed.

Lemma mapM_map {A B} (f : A -> option B) (g : A -> B) l : (forall x, x ∈ l -> f x = Some (g x)) -> mapM f l = Some (map g l).
Proof.
  induction l as [|x l IH]; intros E; cbn; [done|]. rewrite (E x) by left. cbn. rewrite IH; [done|]. intros y Hy. apply E. by right.
Qed.

Lemma inputsAt_eq (l : list N) idx : (forall i, i ∈ idx -> (i < length l)%nat) -> inputsAt l idx = Some (map (fun i => default 0 (l !! i)) idx).
Proof.
  intros H. unfold inputsAt. apply mapM_map. intros i Hi. apply H in Hi. destruct (lookup_lt_is_Some_2 l i Hi) as [x ->]. done.
Qed.

Lemma map_lookup_seq (l : list N) : map (fun i => default 0 (l !! i)) (seq 0 (length l)) = l.
Proof.
  apply list_eq. intros i. rewrite (list_lookup_fmap (fun i => default 0 (l !! i))).
  destruct (decide (i < length l)%nat) as [H|H].
  - rewrite lookup_seq_lt by done. cbn. destruct (lookup_lt_is_Some_2 l i H) as [x ->]. done.
  - rewrite lookup_seq_ge, lookup_ge_None_2 by lia. done.
Qed.

(** ** Interleaving *)

Lemma concat_insert_tail {A} (qs : list (list A)) t x q : qs !! t = Some (x :: q) -> concat qs ≡ₚ x :: concat (<[t := q]> qs).
Proof.
  revert t. induction qs as [|q0 qs IH]; intros [|t] E; cbn in *; try done.
  - injection E as ->. done.
  - rewrite (IH t E). by rewrite Permutation_middle.
Qed.

Lemma interleave_perm sched qs l : interleave sched qs = Some l -> l ≡ₚ concat qs.
Proof.
  revert qs l. induction sched as [|t sched IH]; intros qs l E; cbn in E.
  - destruct (forallb _ qs) eqn:F; [|done]. injection E as <-. rewrite forallb_forall in F.
    assert (concat qs = []) as ->; [|done]. induction qs as [|q qs IH]; [done|]. cbn.
    specialize (F q (or_introl eq_refl)) as Fq. destruct q; [|done]. cbn. apply IH. intros x Hx. apply F. by right.
  - destruct (qs !! t) as [[|x q]|] eqn:Eq; try done. destruct (interleave sched _) as [l'|] eqn:E'; [|done]. injection E as <-.
    rewrite (concat_insert_tail qs t x q Eq). f_equiv. by apply IH.
Qed.

Lemma interleave_exists qs : exists sched l, interleave sched qs = Some l.
Proof.
  remember (length (concat qs)) as k eqn:Hk. revert qs Hk. induction k as [|k IH]; intros qs Hk.
  - exists [], []. cbn. assert (forallb (fun q : list N => match q with [] => true | _ => false end) qs = true) as ->; [|done].
    apply forallb_forall. intros q Hq. destruct q as [|x q]; [done|]. apply in_split in Hq as (l1 & l2 & ->).
    rewrite concat_app, app_length in Hk. cbn in Hk. lia.
  - assert (exists t x q, qs !! t = Some (x :: q)) as (t & x & q & E).
    { clear IH. induction qs as [|[|x q] qs IH]; cbn in *; [done| |by exists 0%nat, x, q].
      destruct (IH Hk) as (t & x & q & E). by exists (S t), x, q. }
    destruct (IH (<[t := q]> qs)) as (sched & l & El).
    { pose proof (Permutation_length (concat_insert_tail qs t x q E)) as HL. cbn [length] in HL. lia. }
    exists (t :: sched), (x :: l). cbn. by rewrite E, El.
Qed.

(** ** The map *)

Lemma mapInsert_keys blks m : (forall k v, (k, v) ∈ m -> k = v mod 2 ^ 32) ->
  (forall k v, (k, v) ∈ foldl mapInsert m blks -> k = v mod 2 ^ 32 /\ ((k, v) ∈ m \/ v ∈ blks)) /\
  (forall k v, (k, v) ∈ m \/ (v ∈ blks /\ k = v mod 2 ^ 32) -> k ∈ (foldl mapInsert m blks).*1).
Proof.
  revert m. induction blks as [|b blks IH]; intros m I; cbn [foldl].
  - split; [intros k v H; split; [by apply I|by left]|]. intros k v [H|[H _]]; [|by apply elem_of_nil in H].
    by apply (elem_of_list_fmap_1 fst) in H.
  - assert (forall k v, (k, v) ∈ mapInsert m b -> k = v mod 2 ^ 32) as I'.
    { intros k v. unfold mapInsert. case_bool_decide; [apply I|]. rewrite elem_of_app, elem_of_list_singleton. intros [H'|[= -> ->]]; [by apply I|done]. }
    destruct (IH (mapInsert m b) I') as [A B]. split.
    + intros k v H. destruct (A k v H) as [E [H'|H']]; split; try done; [|right; by right].
      unfold mapInsert in H'. case_bool_decide; [by left|]. apply elem_of_app in H' as [H'|H']; [by left|].
      apply elem_of_list_singleton in H' as [= -> ->]. right. left.
    + intros k v [H|[H ->]].
      * apply (B k v). left. unfold mapInsert. case_bool_decide; [done|]. apply elem_of_app. by left.
      * apply elem_of_cons in H as [->|H]; [|apply (B _ v); right; done].
        unfold mapInsert in *. case_bool_decide as D.
        -- apply elem_of_list_fmap in D as ([k' v'] & E & D). cbn in E. rewrite E. apply (B k' v'). by left.
        -- apply (B _ b). left. apply elem_of_app. right. by apply elem_of_list_singleton.
Qed.

Lemma map_find blks k :
  match list_find (fun e => e.1 = k) (foldl mapInsert [] blks) with
  | Some (_, (_, blk)) => blk ∈ blks /\ blk mod 2 ^ 32 = k
  | None => forall blk, blk ∈ blks -> blk mod 2 ^ 32 <> k
  end.
Proof.
  destruct (mapInsert_keys blks []) as [A B]; [intros ?? H; by apply elem_of_nil in H|].
  destruct (list_find _ _) as [[i [k' v]]|] eqn:E.
  - apply list_find_Some in E as (E & Hk & _). cbn in Hk. subst k'. apply elem_of_list_lookup_2 in E.
    destruct (A k v E) as [-> [H|H]]; [by apply elem_of_nil in H|done].
  - apply list_find_None in E. rewrite Forall_forall in E. intros blk Hb Hk.
    assert (k ∈ (foldl mapInsert [] blks).*1) as H by (apply (B k blk); right; done).
    apply elem_of_list_fmap in H as (e & -> & H). by apply (E e).
Qed.

(** ** The run *)

Lemma concat_map_omap {A B C} (f : A -> list B) (g : B -> option C) l :
  concat (map (fun t => omap g (f t)) l) = omap g (concat (map f l)).
Proof. induction l as [|a l IH]; cbn; [done|]. rewrite IH. by rewrite omap_app. Qed.

Lemma zip_map_r {A B} (f : A -> B) l : zip l (map f l) = map (fun a => (a, f a)) l.
Proof. induction l as [|a l IH]; cbn; [done|]. by rewrite IH. Qed.

Lemma omap_map {A B C} (f : A -> B) (g : B -> option C) l : omap g (map f l) = omap (fun a => g (f a)) l.
Proof. induction l as [|a l IH]; cbn; [done|]. by rewrite IH. Qed.

Lemma omap_ext_in {A C} (f g : A -> option C) (l : list A) : (forall x, x ∈ l -> f x = g x) -> omap f l = omap g l.
Proof.
  induction l as [|a l IH]; intros E; cbn; [done|]. rewrite (E a) by left. rewrite IH; [done|]. intros x Hx. apply E. by right.
Qed.

Lemma concat_map_map {A B} (f : A -> B) (l : list (list A)) : concat (map (map f) l) = map f (concat l).
Proof. induction l as [|a l IH]; cbn; [done|]. by rewrite IH, map_app. Qed.

Lemma maskBytes_ge n : (0 < n)%nat -> 5 <= maskBytes n.
Proof. intros H. unfold maskBytes. pose proof (N.log2_nonneg (N.of_nat n * N.of_nat n)). generalize dependent (N.log2 (N.of_nat n * N.of_nat n)). intros q _. lia. Qed.

Lemma mod_mod_pow x a b : a <= b -> (x mod 2 ^ b) mod 2 ^ a = x mod 2 ^ a.
Proof.
  intros H. apply N.bits_inj. intros k. destruct (N.ltb_spec k a).
  - by rewrite !N.mod_pow2_bits_low by lia.
  - by rewrite !N.mod_pow2_bits_high by lia.
Qed.

Lemma seq_omap_sorted (f : nat -> bool) s n : StronglySorted N.lt (omap (fun i => if f i then Some (N.of_nat i) else None) (seq s n)).
Proof.
  revert s. induction n as [|n IH]; intros s; [constructor|]. change (seq s (S n)) with (s :: seq (S s) n). cbn [omap list_omap].
  destruct (f s); [|apply IH]. constructor; [apply IH|]. apply Forall_forall. intros k Hk. apply elem_of_list_omap in Hk as (i & Hi & E).
  apply elem_of_seq in Hi. destruct (f i); [|done]. injection E as <-. lia.
Qed.

Section Ecdh.
Context {P : Type}.
Variable (smul : P -> N -> P) (pt : N -> P) (enc : P -> N) (dec : N -> P).
Variable (roItem : nat -> N -> N) (roPoint : N -> N) (hashSize : nat).
Variable (T : nat) (a b : N) (R S : list N).
Hypothesis (HT : (0 < T)%nat) (Hn : (0 < length R)%nat) (Hl : length S = length R).
Hypothesis (Hw : N.of_nat (length R) * N.of_nat T < 2 ^ 64) (Hm : maskBytes (length R) <= 16).

Let blockOf (x : N) : N := recvBlock smul enc dec roPoint b (sendPoint smul pt enc roItem a x).
Let ms := maskBytes (length R).
Let maskOf (y : N) : N := sendMask smul enc dec roPoint ms a (recvPoint smul pt enc roItem hashSize b y).

(** What is reported, given the insertions in order [blks]. *)
Definition reported (blks : list N) (y : N) : bool :=
  match list_find (fun e => e.1 = maskOf y mod 2 ^ 32) (foldl mapInsert [] blks) with
  | Some (_, (_, blk)) => maskOf y =? blk mod 2 ^ (8 * ms)
  | None => false
  end.

Let out (blks : list N) : list N := omap (fun i => if reported blks (default 0 (R !! i)) then Some (N.of_nat i) else None) (seq 0 (length R)).

Lemma ecdh_run sched old :
  match interleave sched (map (map blockOf) (map (fun t => map (fun i => default 0 (S !! i)) (idxRange (length R) T t)) (seq 0 T))) with
  | None => ecdhRun smul pt enc dec roItem roPoint hashSize T a b R S sched old = OutOfFuel
  | Some blks => blks ≡ₚ map blockOf S /\ ecdhRun smul pt enc dec roItem roPoint hashSize T a b R S sched old = Done (old ++ out blks)
  end.
Proof using HT Hn Hl Hw Hm.
  unfold ecdhRun. rewrite Hl.
  rewrite (proj2 (Nat.eqb_neq T 0)) by lia. rewrite (proj2 (Nat.eqb_neq (length R) 0)) by lia. cbn [orb].
  rewrite (proj2 (N.ltb_ge _ _) Hm). cbn [orb].
  rewrite (mapM_map _ (fun t => map (fun i => default 0 (R !! i)) (idxRange (length R) T t)) (seq 0 T)).
  2:{ intros t Ht. apply elem_of_seq in Ht. apply inputsAt_eq. intros i Hi. apply (idxRange_lt (length R) T t i HT Hw); [lia|exact Hi]. }
  rewrite (mapM_map _ (fun t => map (fun i => default 0 (S !! i)) (idxRange (length R) T t)) (seq 0 T)).
  2:{ intros t Ht. apply elem_of_seq in Ht. apply inputsAt_eq. intros i Hi. rewrite Hl. apply (idxRange_lt (length R) T t i HT Hw); [lia|exact Hi]. }
  assert (forall (f : N -> N) (l : list N), checked (length R) T (map (map f) (map (fun t => map (fun i => default 0 (l !! i)) (idxRange (length R) T t)) (seq 0 T))) = true) as HC.
  { intros f l. unfold checked. apply forallb_forall. intros t Ht. apply in_seq in Ht.
    rewrite (list_lookup_fmap (map f)), (list_lookup_fmap (fun t => map (fun i => default 0 (l !! i)) (idxRange (length R) T t))), lookup_seq_lt by lia.
    cbn [fmap option_fmap option_map]. rewrite !map_length. apply Nat.eqb_refl. }
  rewrite !HC. cbn [negb orb].
  match goal with |- context [map (map blockOf) ?l] => set (qs := l) end.
  rewrite (map_map (map (sendPoint smul pt enc roItem a)) (map (recvBlock smul enc dec roPoint b)) qs).
  assert (map (fun x => map (recvBlock smul enc dec roPoint b) (map (sendPoint smul pt enc roItem a) x)) qs = map (map blockOf) qs) as ->.
  { apply map_ext. intros q. rewrite map_map. done. }
  destruct (interleave sched (map (map blockOf) qs)) as [blks|] eqn:E; [|done].
  rewrite N.eqb_refl. cbn [negb]. split.
  - apply interleave_perm in E. rewrite E, concat_map_map. f_equiv. unfold qs.
    rewrite <- (map_map (idxRange (length R) T) (map (fun i => default 0 (S !! i)))).
    rewrite concat_map_map, idxRange_concat by done. rewrite <- Hl. by rewrite map_lookup_seq.
  - f_equal. f_equal. unfold out. rewrite <- (idxRange_concat (length R) T HT Hw), <- concat_map_omap. f_equal.
    apply map_ext_in. intros t Ht. apply in_seq in Ht. unfold matchThread.
    rewrite (list_lookup_fmap (map (sendMask smul enc dec roPoint (maskBytes (length R)) a))), (list_lookup_fmap (map (recvPoint smul pt enc roItem hashSize b))),
      (list_lookup_fmap (fun t => map (fun i => default 0 (R !! i)) (idxRange (length R) T t))), lookup_seq_lt by lia.
    cbn [fmap option_fmap option_map]. match goal with |- context [default [] (Some ?x)] => change (default [] (Some x)) with x end.
    rewrite !map_map, zip_map_r, omap_map. apply omap_ext_in. intros i _. cbn [fst snd].
    unfold reported. fold ms. fold (maskOf (default 0 (R !! i))). destruct (list_find _ _) as [[? [? ?]]|]; [|done]. done.
Qed.

(** The pieces in terms of the specification. *)
Lemma out_commonIn (blks : list N) :
  (forall y, y ∈ R -> reported blks y = true <-> y ∈ S) -> out blks = commonIn R S.
Proof using HT Hl Hm Hn Hw.
  intros H. unfold out, commonIn.
  assert (zip (seq 0 (length R)) R = map (fun i => (i, default 0 (R !! i))) (seq 0 (length R))) as ->.
  { rewrite <- zip_map_r. f_equal. by rewrite map_lookup_seq. }
  rewrite omap_map. apply omap_ext_in. intros i Hi. apply elem_of_seq in Hi. cbn [fst snd].
  destruct (lookup_lt_is_Some_2 R i ltac:(lia)) as [y Hy]. rewrite Hy. change (default 0 (Some y)) with y.
  specialize (H y (elem_of_list_lookup_2 _ _ _ Hy)). case_bool_decide as D.
  - by rewrite (proj2 H D).
  - destruct (reported blks y); [|done]. by destruct D; apply H.
Qed.

Lemma maskOf_low y : maskOf y mod 2 ^ 32 = roPoint (enc (smul (dec (recvPoint smul pt enc roItem hashSize b y)) a)) mod 2 ^ 32.
Proof using HT Hl Hm Hn Hw.
  unfold maskOf, sendMask. apply mod_mod_pow. unfold ms. pose proof (maskBytes_ge (length R) Hn). lia.
Qed.

Lemma reported_sound blks y : blks ≡ₚ map blockOf S -> reported blks y = true -> exists x, x ∈ S /\ maskOf y = blockOf x mod 2 ^ (8 * ms).
Proof using HT Hl Hm Hn Hw.
  intros Hp H. unfold reported in H. pose proof (map_find blks (maskOf y mod 2 ^ 32)) as F.
  destruct (list_find _ _) as [[? [? blk]]|]; [|done]. destruct F as [F _]. rewrite Hp in F. apply elem_of_list_fmap in F as (x & -> & Hx).
  apply N.eqb_eq in H. eauto.
Qed.

Lemma reported_complete blks y : blks ≡ₚ map blockOf S -> y ∈ S -> maskOf y = blockOf y mod 2 ^ (8 * ms) ->
  (forall x, x ∈ S -> blockOf x mod 2 ^ 32 = blockOf y mod 2 ^ 32 -> blockOf x = blockOf y) -> reported blks y = true.
Proof using HT Hl Hm Hn Hw.
  intros Hp Hy E H. unfold reported. pose proof (map_find blks (maskOf y mod 2 ^ 32)) as F.
  assert (maskOf y mod 2 ^ 32 = blockOf y mod 2 ^ 32) as EL.
  { rewrite E. apply mod_mod_pow. unfold ms. pose proof (maskBytes_ge (length R) Hn). lia. }
  rewrite EL in *. destruct (list_find _ _) as [[? [? blk]]|].
  - destruct F as [F FE]. rewrite Hp in F. apply elem_of_list_fmap in F as (x & -> & Hx). rewrite (H x Hx FE), E. apply N.eqb_refl.
  - exfalso. apply (F (blockOf y)); [|done]. rewrite Hp. by apply (elem_of_list_fmap_1 blockOf).
Qed.

Let run := ecdhRun smul pt enc dec roItem roPoint hashSize T a b R S.

Lemma ecdh_terminates old : (forall sched, run sched old = OutOfFuel \/ exists l, run sched old = Done l) /\ exists sched l, run sched old = Done l.
Proof using HT Hl Hm Hn Hw.
  split.
  - intros sched. pose proof (ecdh_run sched old) as E. destruct (interleave _ _); [right|left; exact E]. destruct E as [_ E]. eauto.
  - destruct (interleave_exists (map (map blockOf) (map (fun t => map (fun i => default 0 (S !! i)) (idxRange (length R) T t)) (seq 0 T)))) as (sched & l & El).
    exists sched. pose proof (ecdh_run sched old) as E. rewrite El in E. destruct E as [_ E]. eauto.
Qed.

Lemma ecdh_inv sched old l : run sched old = Done l -> exists blks, blks ≡ₚ map blockOf S /\ l = old ++ out blks.
Proof using HT Hl Hm Hn Hw.
  intros H. pose proof (ecdh_run sched old) as E. fold (run sched old) in E. destruct (interleave _ _); [|congruence].
  destruct E as [E1 E2]. fold (run sched old) in E2. rewrite H in E2. injection E2 as ->. eauto.
Qed.

Lemma elem_of_out blks k : k ∈ out blks <-> exists i y, k = N.of_nat i /\ R !! i = Some y /\ reported blks y = true.
Proof using HT Hl Hm Hn Hw.
  unfold out. rewrite elem_of_list_omap. split.
  - intros (i & Hi & H). apply elem_of_seq in Hi. destruct (lookup_lt_is_Some_2 R i ltac:(lia)) as [y Hy]. rewrite Hy in H.
    change (default 0 (Some y)) with y in H. destruct (reported blks y) eqn:E; [|done]. injection H as <-. eauto.
  - intros (i & y & -> & Hy & H). exists i. split; [apply elem_of_seq; apply lookup_lt_Some in Hy; lia|]. rewrite Hy.
    change (default 0 (Some y)) with y. by rewrite H.
Qed.

Lemma ecdh_complete sched old l i y :
  (forall p, dec (enc p) = p) -> (forall p, smul (smul p b) a = smul (smul p a) b) ->
  (forall z, z ∈ R -> roItem hashSize z mod 2 ^ 128 = roItem 16 z) ->
  (forall x, x ∈ S -> blockOf x mod 2 ^ 32 = blockOf y mod 2 ^ 32 -> blockOf x = blockOf y) ->
  run sched old = Done l -> R !! i = Some y -> y ∈ S -> N.of_nat i ∈ l.
Proof using HT Hl Hm Hn Hw.
  intros DE CM HA HP H Hi Hy. destruct (ecdh_inv sched old l H) as (blks & Hp & ->). apply elem_of_app. right.
  apply elem_of_out. exists i, y. split; [done|]. split; [done|]. apply reported_complete; [done..| |done].
  unfold maskOf, blockOf, sendMask, recvBlock, recvPoint, sendPoint. rewrite !DE, HA by (by eapply elem_of_list_lookup_2). by rewrite CM.
Qed.

Lemma ecdh_sorted sched old l : run sched old = Done l -> exists new, l = old ++ new /\ StronglySorted N.lt new.
Proof using HT Hl Hm Hn Hw.
  intros H. destruct (ecdh_inv sched old l H) as (blks & Hp & ->). eexists. split; [done|]. apply seq_omap_sorted.
Qed.

Lemma ecdh_sound sched old l :
  (forall y x, y ∈ R -> x ∈ S -> maskOf y = blockOf x mod 2 ^ (8 * ms) -> y = x) ->
  run sched old = Done l -> exists new, l = old ++ new /\ StronglySorted N.lt new /\
    forall k, k ∈ new -> exists y, R !! N.to_nat k = Some y /\ y ∈ S.
Proof using HT Hl Hm Hn Hw.
  intros HD H. destruct (ecdh_inv sched old l H) as (blks & Hp & ->). eexists. split; [done|]. split; [apply seq_omap_sorted|].
  intros k Hk. apply elem_of_out in Hk as (i & y & -> & Hi & Hr). rewrite Nat2N.id. exists y. split; [done|].
  destruct (reported_sound blks y Hp Hr) as (x & Hx & E). rewrite (HD y x); [done| |done|done]. by eapply elem_of_list_lookup_2.
Qed.

Lemma ecdh_exact sched old l :
  (forall p, dec (enc p) = p) -> (forall p, smul (smul p b) a = smul (smul p a) b) ->
  (forall z, z ∈ R -> roItem hashSize z mod 2 ^ 128 = roItem 16 z) ->
  (forall x y, x ∈ S -> y ∈ S -> blockOf x mod 2 ^ 32 = blockOf y mod 2 ^ 32 -> blockOf x = blockOf y) ->
  (forall y x, y ∈ R -> x ∈ S -> maskOf y = blockOf x mod 2 ^ (8 * ms) -> y = x) ->
  run sched old = Done l -> l = old ++ commonIn R S.
Proof using HT Hl Hm Hn Hw.
  intros DE CM HA HP HD H. destruct (ecdh_inv sched old l H) as (blks & Hp & ->). f_equal. apply out_commonIn. intros y Hy. split.
  - intros Hr. destruct (reported_sound blks y Hp Hr) as (x & Hx & E). by rewrite (HD y x).
  - intros HyS. apply reported_complete; [done..| |intros x Hx; by apply HP].
    unfold maskOf, blockOf, sendMask, recvBlock, recvPoint, sendPoint. rewrite !DE, HA by done. by rewrite CM.
Qed.
End Ecdh.

(** ** Statements *)

Lemma maskBytes_le n : N.of_nat n < 2 ^ 44 -> maskBytes n <= 16.
Proof.
  intros H. unfold maskBytes.
  assert (N.log2 (N.of_nat n * N.of_nat n) <= 88) as HL.
  { assert (N.of_nat n * N.of_nat n <= 2 ^ 88) as H2 by (change (2 ^ 88) with (2 ^ 44 * 2 ^ 44); nia).
    apply N.log2_le_mono in H2. by rewrite N.log2_pow2 in H2 by lia. }
  generalize dependent (N.log2 (N.of_nat n * N.of_nat n)). intros q Hq. lia.
Qed.

Section Statements.
Context {P : Type}.
Variable (smul : P -> N -> P) (pt : N -> P) (enc : P -> N) (dec : N -> P).
Variable (roItem : nat -> N -> N) (roPoint : N -> N) (hashSize : nat).

Lemma block_eq a b x : (forall p, dec (enc p) = p) ->
  recvBlock smul enc dec roPoint b (sendPoint smul pt enc roItem a x) = dhBlock smul pt enc roPoint (roItem 16%nat x) a b.
Proof. intros H. unfold recvBlock, sendPoint, dhBlock. by rewrite H. Qed.
Lemma mask_eq ms a b y : (forall p, dec (enc p) = p) ->
  sendMask smul enc dec roPoint ms a (recvPoint smul pt enc roItem hashSize b y) =
  dhBlock smul pt enc roPoint (roItem hashSize y mod 2 ^ 128) b a mod 2 ^ (8 * ms).
Proof. intros H. unfold sendMask, recvPoint, dhBlock. by rewrite H. Qed.

Lemma ecdh_C32 T a b R S old :
  (0 < T)%nat -> (0 < length R)%nat -> length S = length R -> N.of_nat (length R) * N.of_nat T < 2 ^ 64 -> N.of_nat (length R) < 2 ^ 44 ->
  (forall p, dec (enc p) = p) -> (forall p, smul (smul p b) a = smul (smul p a) b) ->
  (forall z, z ∈ R -> roItem hashSize z mod 2 ^ 128 = roItem 16%nat z) ->
  (exists sched l, ecdhRun smul pt enc dec roItem roPoint hashSize T a b R S sched old = Done l) /\
  forall sched,
    ecdhRun smul pt enc dec roItem roPoint hashSize T a b R S sched old = OutOfFuel \/
    exists l, ecdhRun smul pt enc dec roItem roPoint hashSize T a b R S sched old = Done l /\
      forall i y, R !! i = Some y -> y ∈ S ->
        (forall x, x ∈ S -> dhBlock smul pt enc roPoint (roItem 16%nat x) a b mod 2 ^ 32 = dhBlock smul pt enc roPoint (roItem 16%nat y) a b mod 2 ^ 32 ->
           dhBlock smul pt enc roPoint (roItem 16%nat x) a b = dhBlock smul pt enc roPoint (roItem 16%nat y) a b) ->
        N.of_nat i ∈ l.
Proof.
  intros HT Hn Hl Hw Hm DE CM HA. apply maskBytes_le in Hm.
  destruct (ecdh_terminates smul pt enc dec roItem roPoint hashSize T a b R S HT Hn Hl Hw Hm old) as [A B]. split; [done|].
  intros sched. destruct (A sched) as [A'|(l & A')]; [by left|right]. exists l. split; [done|]. intros i y Hi Hy HP.
  refine (ecdh_complete smul pt enc dec roItem roPoint hashSize T a b R S HT Hn Hl Hw Hm sched old l i y DE CM HA _ A' Hi Hy).
  intros x Hx. rewrite !block_eq by done. by apply HP.
Qed.

Lemma ecdh_C33 T a b R S sched old l :
  (0 < T)%nat -> (0 < length R)%nat -> length S = length R -> N.of_nat (length R) * N.of_nat T < 2 ^ 64 -> N.of_nat (length R) < 2 ^ 44 ->
  (forall p, dec (enc p) = p) ->
  (forall y x, y ∈ R -> x ∈ S ->
     dhBlock smul pt enc roPoint (roItem hashSize y mod 2 ^ 128) b a mod 2 ^ (8 * maskBytes (length R)) =
     dhBlock smul pt enc roPoint (roItem 16%nat x) a b mod 2 ^ (8 * maskBytes (length R)) -> y = x) ->
  ecdhRun smul pt enc dec roItem roPoint hashSize T a b R S sched old = Done l ->
  exists new, l = old ++ new /\ StronglySorted N.lt new /\ forall k, k ∈ new -> exists y, R !! N.to_nat k = Some y /\ y ∈ S.
Proof.
  intros HT Hn Hl Hw Hm DE HD H. apply maskBytes_le in Hm.
  refine (ecdh_sound smul pt enc dec roItem roPoint hashSize T a b R S HT Hn Hl Hw Hm sched old l _ H).
  intros y x Hy Hx. rewrite block_eq, mask_eq by done. by apply HD.
Qed.

Lemma ecdh_C33_exact T a b R S sched old l :
  (0 < T)%nat -> (0 < length R)%nat -> length S = length R -> N.of_nat (length R) * N.of_nat T < 2 ^ 64 -> N.of_nat (length R) < 2 ^ 44 ->
  (forall p, dec (enc p) = p) -> (forall p, smul (smul p b) a = smul (smul p a) b) ->
  (forall z, z ∈ R -> roItem hashSize z mod 2 ^ 128 = roItem 16%nat z) ->
  (forall x y, x ∈ R ++ S -> y ∈ R ++ S ->
     dhBlock smul pt enc roPoint (roItem 16%nat x) a b mod 2 ^ 32 = dhBlock smul pt enc roPoint (roItem 16%nat y) a b mod 2 ^ 32 -> x = y) ->
  ecdhRun smul pt enc dec roItem roPoint hashSize T a b R S sched old = Done l -> l = old ++ commonIn R S.
Proof.
  intros HT Hn Hl Hw Hm DE CM HA HP H. apply maskBytes_le in Hm.
  refine (ecdh_exact smul pt enc dec roItem roPoint hashSize T a b R S HT Hn Hl Hw Hm sched old l DE CM HA _ _ H).
  - intros x y Hx Hy. rewrite !block_eq by done. intros E. by rewrite (HP x y); [..|done]; try (apply elem_of_app; by right).
  - intros y x Hy Hx. rewrite block_eq, mask_eq by done. rewrite HA by done. unfold dhBlock. rewrite CM. fold (dhBlock smul pt enc roPoint (roItem 16%nat y) a b).
    fold (dhBlock smul pt enc roPoint (roItem 16%nat x) a b). intros E. apply HP; [apply elem_of_app; by left|apply elem_of_app; by right|].
    pose proof (maskBytes_ge (length R) Hn).
    rewrite <- (mod_mod_pow _ 32 (8 * maskBytes (length R))), E by lia. apply mod_mod_pow. lia.
Qed.
End Statements.
