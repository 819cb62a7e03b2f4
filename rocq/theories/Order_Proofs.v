(** Uniform permutations hide the places. *)
From stdpp Require Import sets.
From Verif Require Import Base Order_Spec.

(** ** Lists that are permutations of each other *)

Lemma perm_maps {A} (l l' : list A) : l ≡ₚ l' -> exists t t' : nat -> nat,
  forall i, (i < length l)%nat ->
    (t i < length l)%nat /\ (t' i < length l)%nat /\ t' (t i) = i /\ t (t' i) = i /\ l' !! t i = l !! i /\ l !! t' i = l' !! i.
Proof.
  intros P. apply Permutation_inj in P as (L & t & It & Ht). set (n := length l) in *.
  assert (forall i, (i < n)%nat -> (t i < n)%nat) as Hn.
  { intros i Hi. rewrite L. apply lookup_lt_is_Some. rewrite <- Ht. by apply lookup_lt_is_Some. }
  assert (map t (seq 0 n) ≡ₚ seq 0 n) as Hp.
  { apply submseteq_Permutation_length_eq; [by rewrite map_length|]. apply NoDup_submseteq; [apply NoDup_fmap_2; [done|apply NoDup_seq]|].
    intros j (i & -> & Hi%elem_of_seq)%elem_of_list_fmap. apply elem_of_seq. pose proof (Hn i). lia. }
  set (t' := fun j => match list_find (fun i => t i = j) (seq 0 n) with Some (_, i) => i | None => O end).
  assert (forall j, (j < n)%nat -> (t' j < n)%nat /\ t (t' j) = j) as Ht'.
  { intros j Hj. assert (j ∈ map t (seq 0 n)) as Hin by (rewrite Hp; apply elem_of_seq; lia).
    apply elem_of_list_fmap in Hin as (i & Ei & Hi). destruct (list_find_elem_of (fun i => t i = j) (seq 0 n) i Hi (eq_sym Ei)) as [[k i'] E].
    unfold t'. rewrite E. apply list_find_Some in E as (E1 & E2 & _). apply lookup_seq in E1 as [-> E1]. split; [lia|done]. }
  exists t, t'. intros i Hi. pose proof (Hn i Hi). destruct (Ht' i Hi) as [H1 H2]. destruct (Ht' (t i) (Hn i Hi)) as [_ H3].
  split; [done|]. split; [done|]. split; [by apply (inj t)|]. split; [done|]. split; [by rewrite Ht|]. by rewrite Ht, H2.
Qed.

Lemma relabel_perm n h pm : relabels n h -> pm ≡ₚ seq 0 n -> map h pm ≡ₚ seq 0 n.
Proof.
  intros (h' & H) Hp. transitivity (map h (seq 0 n)); [by rewrite Hp|].
  apply submseteq_Permutation_length_eq; [by rewrite map_length|]. apply NoDup_submseteq.
  - apply NoDup_alt. intros a b x Ha Hb. apply list_lookup_fmap_Some in Ha as (i & Ha & Ei), Hb as (j & Hb & Ej).
    apply lookup_seq in Ha as [-> Ha], Hb as [-> Hb]. destruct (H (0 + a)%nat ltac:(lia)) as (_ & _ & U1 & _), (H (0 + b)%nat ltac:(lia)) as (_ & _ & U2 & _).
    assert (0 + a = 0 + b)%nat; [|lia]. congruence.
  - intros j (i & -> & Hi%elem_of_seq)%elem_of_list_fmap. apply elem_of_seq. destruct (H i); lia.
Qed.
Lemma relabel_permutes n h : relabels n h -> permutesPerms n (map h).
Proof.
  intros (h' & H). assert (forall pm i, pm ≡ₚ seq 0 n -> In i pm -> (i < n)%nat) as Hin.
  { intros pm i Hp Hi%elem_of_list_In. rewrite Hp in Hi. apply elem_of_seq in Hi. lia. }
  exists (map h'). intros pm Hp. split; [|split; [|split]].
  - apply relabel_perm; [by exists h'|done].
  - apply relabel_perm; [|done]. exists h. intros i Hi. destruct (H i Hi) as (? & ? & ? & ?). done.
  - rewrite map_map. transitivity (map id pm); [|apply map_id]. apply map_ext_in. intros i Hi. apply H. eauto.
  - rewrite map_map. transitivity (map id pm); [|apply map_id]. apply map_ext_in. intros i Hi. apply H. eauto.
Qed.

Lemma filter_app_complement {A} (P : A -> Prop) `{!forall x, Decision (P x)} (l : list A) : filter P l ++ filter (fun x => ~ P x) l ≡ₚ l.
Proof.
  induction l as [|x l IH]; [done|]. rewrite !filter_cons. destruct (decide (P x)) as [Q|Q]; destruct (decide (~ P x)) as [Q'|Q']; try tauto.
  - cbn. by rewrite IH.
  - rewrite <- Permutation_middle. by rewrite IH.
Qed.
(** Rows that only tell something for common items. *)
Lemma rows_perm {B} (V : N -> B) (c : B) (R S S' : list N) : sameCommon R S S' -> (forall x, x ∈ S ++ S' -> x ∉ R -> V x = c) -> map V S ≡ₚ map V S'.
Proof.
  intros (D & D' & L & H) HV.
  assert (forall l, (forall x, x ∈ l -> x ∈ S ++ S') -> map V l ≡ₚ map V (filter (fun x => x ∈ R) l) ++ replicate (length l - length (filter (fun x => x ∈ R) l)) c) as Hsplit.
  { intros l Hl. transitivity (map V (filter (fun x => x ∈ R) l ++ filter (fun x => x ∉ R) l)).
    { apply fmap_Permutation. symmetry. apply filter_app_complement. }
    rewrite map_app. apply Permutation_app_head.
    assert (length l = length (filter (fun x => x ∈ R) l) + length (filter (fun x => x ∉ R) l))%nat as Ll.
    { rewrite <- app_length. apply Permutation_length. symmetry. apply filter_app_complement. }
    replace (length l - length (filter (fun x => x ∈ R) l))%nat with (length (filter (fun x => x ∉ R) l)) by lia.
    assert (forall x, x ∈ filter (fun x => x ∉ R) l -> V x = c) as Hc. { intros x [Hx Hx']%elem_of_list_filter. auto. }
    clear Ll. induction (filter (fun x => x ∉ R) l) as [|x l' IH]; [done|]. cbn. rewrite Hc by left. constructor. apply IH. intros y Hy. apply Hc. by right. }
  assert (filter (fun x => x ∈ R) S ≡ₚ filter (fun x => x ∈ R) S') as Hf.
  { apply list.NoDup_Permutation; [by apply NoDup_filter|by apply NoDup_filter|]. intros x. rewrite !elem_of_list_filter. naive_solver. }
  rewrite (Hsplit S), (Hsplit S'); [|set_solver|set_solver]. rewrite L, (Permutation_length Hf). apply Permutation_app_tail. by apply fmap_Permutation.
Qed.

(** Positions of equal meaning. *)
Lemma mean_eq R x x' : mean R x = mean R x' -> x = x' \/ (x ∉ R /\ x' ∉ R).
Proof. unfold mean. do 2 destruct (decide _); intros E; [left; congruence|done|done|by right]. Qed.
Lemma match_positions R S S' : sameCommon R S S' -> exists h, relabels (length S) h /\
  forall i x, S !! i = Some x -> exists x', S' !! h i = Some x' /\ (x = x' \/ (x ∉ R /\ x' ∉ R)).
Proof.
  intros Hc. assert (map (mean R) S ≡ₚ map (mean R) S') as P.
  { apply (rows_perm (mean R) None R S S' Hc). intros x _ Hx. unfold mean. by rewrite decide_False. }
  destruct (perm_maps _ _ P) as (h & h' & H). rewrite map_length in H. exists h. split.
  - exists h'. intros i Hi. destruct (H i Hi) as (? & ? & ? & ? & _). done.
  - intros i x Hx. destruct (H i) as (H1 & _ & _ & _ & H5 & _); [by eapply lookup_lt_Some|].
    rewrite !list_lookup_fmap, Hx in H5. cbn in H5. destruct (S' !! h i) as [x'|]; [|done]. cbn in H5. injection H5 as H5. exists x'. split; [done|].
    apply mean_eq in H5 as [->|[? ?]]; [by left|by right].
Qed.

(** ** Masks in the order of the input *)

Lemma sight_map mask R S : noMix mask R S -> sightOf mask R (map mask S) = map (mean R) S.
Proof.
  intros H. unfold sightOf. rewrite map_map. apply map_ext_in. intros y Hy%elem_of_list_In. unfold mean. destruct (decide (y ∈ R)) as [Hr|Hr].
  - destruct (list_find_elem_of (fun x => mask x = mask y) R y Hr eq_refl) as [[k x] E]. rewrite E. cbn. apply list_find_Some in E as (E1 & E2 & _).
    f_equal. apply H; [by eapply elem_of_list_lookup_2|done|done].
  - destruct (list_find (fun x => mask x = mask y) R) as [[k x]|] eqn:E; [|done]. exfalso. apply list_find_Some in E as (E1 & E2 & _).
    apply elem_of_list_lookup_2 in E1. apply Hr. by rewrite <- (H x y).
Qed.
Lemma reorder_map (S : list N) pm : pm ≡ₚ seq 0 (length S) -> reorder S pm = map (fun i => default 0 (S !! i)) pm.
Proof.
  intros H. assert (forall i, i ∈ pm -> (i < length S)%nat) as Hlt. { intros i Hi. rewrite H in Hi. apply elem_of_seq in Hi. lia. }
  clear H. unfold reorder. induction pm as [|i pm IH]; [done|]. cbn. destruct (lookup_lt_is_Some_2 S i) as [x Hx]; [apply Hlt; left|]. rewrite Hx. cbn. f_equal.
  apply IH. intros j Hj. apply Hlt. by right.
Qed.
Lemma shuffled_hidden R S S' : sameCommon R S S' -> exists h, relabels (length S) h /\
  forall pm, pm ≡ₚ seq 0 (length S) -> map (mean R) (reorder S' (map h pm)) = map (mean R) (reorder S pm).
Proof.
  intros Hc. destruct (match_positions R S S' Hc) as (h & Hh & Hm). pose proof Hc as (_ & _ & L & _). exists h. split; [done|]. intros pm Hp.
  rewrite (reorder_map S pm Hp). rewrite (reorder_map S' (map h pm)) by (rewrite <- L; by apply relabel_perm).
  rewrite !map_map. apply map_ext_in. intros i Hi%elem_of_list_In. rewrite Hp in Hi. apply elem_of_seq in Hi.
  destruct (lookup_lt_is_Some_2 S i ltac:(lia)) as [x Hx]. destruct (Hm i x Hx) as (x' & Hx' & Hcase). rewrite Hx, Hx'. cbn. unfold id, mean.
  destruct Hcase as [<-|[N1 N2]]; [done|]. by rewrite !decide_False.
Qed.
Lemma reorder_perm (S : list N) pm : pm ≡ₚ seq 0 (length S) -> reorder S pm ≡ₚ S.
Proof.
  intros Hp. rewrite (reorder_map S pm Hp), (Permutation_map _ Hp). apply Permutation_refl'. apply list_eq. intros i.
  etransitivity; [apply (list_lookup_fmap (fun i : nat => default 0 (S !! i)))|]. destruct (decide (i < length S)%nat) as [H|H].
  - rewrite lookup_seq_lt by done. cbn. by destruct (lookup_lt_is_Some_2 S i H) as [x ->].
  - rewrite lookup_seq_ge by lia. cbn. symmetry. apply lookup_ge_None_2. lia.
Qed.
Lemma reorder_ok R S S' h pm mask : sameCommon R S S' -> relabels (length S) h -> pm ≡ₚ seq 0 (length S) -> noMix mask R (S ++ S') ->
  length (reorder S pm) = length S /\ length (reorder S' (map h pm)) = length S /\ noMix mask R (reorder S pm) /\ noMix mask R (reorder S' (map h pm)).
Proof.
  intros (_ & _ & L & _) Hh Hp HN. pose proof (reorder_perm S pm Hp) as P1.
  assert (reorder S' (map h pm) ≡ₚ S') as P2 by (apply reorder_perm; rewrite <- L; by apply relabel_perm).
  split; [by rewrite P1|]. split; [by rewrite P2|]. split; intros x y Hx Hy; apply HN; try done; apply elem_of_app; [left; by rewrite <- P1|right; by rewrite <- P2].
Qed.
Lemma noMix_check mask R S : forallb (fun x => forallb (fun y => implb (mask x =? mask y) (x =? y)) S) R = true -> noMix mask R S.
Proof.
  intros H x y Hx%elem_of_list_In Hy%elem_of_list_In E. rewrite forallb_forall in H. specialize (H x Hx). rewrite forallb_forall in H. specialize (H y Hy).
  rewrite E, N.eqb_refl in H. by apply N.eqb_eq.
Qed.
