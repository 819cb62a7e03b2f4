From Coq Require Import QArith.
From Verif Require Import Base SimpleIndex_Model SimpleIndex_Spec BinSize_Proofs SimpleHasher_Model BinProb_Model BinProb_Spec.
Local Open Scope N_scope.

(** ** Placements *)
Lemma placements_length b n : length (placements b n) = (b ^ n)%nat.
Proof.
  induction n as [|n IH]; [done|]. cbn [placements]. change (b ^ S n)%nat with (b * b ^ n)%nat.
  assert (forall l, length (concat (map (fun j => map (cons j) (placements b n)) l)) = (length l * b ^ n)%nat) as H.
  { induction l as [|j l IHl]; [done|]. cbn [map concat length]. rewrite app_length, map_length, IHl, IH. lia. }
  by rewrite H, seq_length.
Qed.
Lemma elem_placements b n f : f ∈ placements b n <-> length f = n /\ Forall (fun j => j < b)%nat f.
Proof.
  revert f. induction n as [|n IH]; intros f; cbn [placements].
  - rewrite elem_of_list_singleton. split; [intros ->; done|]. intros [H _]. by apply nil_length_inv.
  - rewrite elem_of_list_In, in_concat. split.
    + intros (l & Hl & Hf). apply in_map_iff in Hl as (j & <- & Hj). apply in_map_iff in Hf as (g & <- & Hg). apply elem_of_list_In, IH in Hg as [Hlen Hg].
      apply in_seq in Hj. split; [by cbn; f_equal|]. constructor; [lia|done].
    + intros [Hlen Hf]. destruct f as [|j g]; [done|]. apply Forall_cons in Hf as [Hj Hg]. exists (map (cons j) (placements b n)). split.
      * apply in_map_iff. exists j. split; [done|]. apply in_seq. lia.
      * apply in_map_iff. exists g. split; [done|]. apply elem_of_list_In, IH. cbn in Hlen. split; [lia|done].
Qed.
Lemma placements_NoDup b n : NoDup (placements b n).
Proof.
  induction n as [|n IH]; cbn [placements]; [apply NoDup_singleton|]. generalize (NoDup_seq 0 b). generalize (seq 0 b). intros l Hl. induction Hl as [|j l Hj Hl IHl]; cbn [map concat]; [constructor|].
  apply NoDup_app. split; [|split; [|done]].
  - change (map (cons j)) with (fmap (M:=list) (cons j)). apply NoDup_fmap; [intros ?? E; by injection E|done].
  - intros f Hf Hin. apply elem_of_list_In, in_concat in Hin as (l' & Hl' & Hf'). apply in_map_iff in Hl' as (j' & <- & Hj'). apply in_map_iff in Hf' as (g & <- & _).
    apply elem_of_list_fmap in Hf as (g' & E & _). injection E as -> _. apply Hj. by apply elem_of_list_In.
Qed.

Definition cnt {A} (p : A -> bool) (l : list A) : N := N.of_nat (length (List.filter p l)).
Lemma cnt_app {A} (p : A -> bool) l l' : cnt p (l ++ l') = cnt p l + cnt p l'.
Proof. unfold cnt. rewrite List.filter_app, app_length. lia. Qed.
Lemma cnt_map {A C} (g : C -> A) (p : A -> bool) l : cnt p (map g l) = cnt (fun x => p (g x)) l.
Proof. unfold cnt. f_equal. induction l as [|a l IH]; [done|]. cbn. destruct (p (g a)); cbn; by rewrite IH. Qed.
Lemma cnt_ext {A} (p q : A -> bool) l : (forall x, p x = q x) -> cnt p l = cnt q l.
Proof. intros H. unfold cnt. by rewrite (List.filter_ext _ _ H). Qed.
Lemma cnt_cons {A} (p : A -> bool) a l : cnt p (a :: l) = (if p a then 1 else 0) + cnt p l.
Proof. unfold cnt. cbn. destruct (p a); cbn; lia. Qed.
(** Number of placements with exactly [i] balls in bin [j]. *)
Definition exactly (b n j i : nat) : N := cnt (fun f => load f j =? i)%nat (placements b n).
Lemma load_cons a f j : load (a :: f) j = ((if j =? a then 1 else 0) + load f j)%nat.
Proof. unfold load. cbn. destruct (j =? a)%nat; done. Qed.
Lemma exactly_gen b n j i l : NoDup l ->
  cnt (fun f => load f j =? i)%nat (concat (map (fun a => map (cons a) (placements b n)) l)) =
  (if decide (j ∈ l) then match i with O => 0 | S i' => exactly b n j i' end + (N.of_nat (length l) - 1) * exactly b n j i else N.of_nat (length l) * exactly b n j i).
Proof.
  intros Hl. induction Hl as [|a l Ha Hl IH]; cbn [map concat].
  - destruct (decide _) as [H|]; [by apply elem_of_nil in H|done].
  - rewrite cnt_app, cnt_map, IH. clear IH.
    destruct (decide (j = a)) as [<-|Hja].
    + rewrite (cnt_ext _ (fun f => match i with O => false | S i' => (load f j =? i')%nat end)). 2: { intros f. rewrite load_cons, Nat.eqb_refl. by destruct i. }
      rewrite decide_False by done. rewrite decide_True by (by left). assert (cnt (fun f => match i with O => false | S i' => (load f j =? i')%nat end) (placements b n) = match i with O => 0 | S i' => exactly b n j i' end) as ->.
      { destruct i; [|done]. unfold cnt. by induction (placements b n). }
      cbn [length]. f_equal. f_equal. lia.
    + rewrite (cnt_ext _ (fun f => load f j =? i)%nat). 2: { intros f. rewrite load_cons. by rewrite (proj2 (Nat.eqb_neq j a) Hja). }
      fold (exactly b n j i). cbn [length]. destruct (decide (j ∈ l)) as [Hj|Hj].
      * rewrite decide_True by (by right). assert (1 <= N.of_nat (length l)). { destruct l; [by apply elem_of_nil in Hj|cbn; lia]. } nia.
      * rewrite decide_False by (intros [->|]%elem_of_cons; done). lia.
Qed.
Lemma choose_0 n : choose n 0 = 1.
Proof. by destruct n. Qed.
Lemma choose_big n : forall k, (n < k)%nat -> choose n k = 0.
Proof. induction n as [|n IH]; intros [|k] H; [lia|done|lia|]. cbn [choose]. rewrite !IH by lia. done. Qed.
Lemma exactly_choose b n j : (j < b)%nat -> forall i, exactly b n j i = choose n i * (N.of_nat b - 1) ^ N.of_nat (n - i).
Proof.
  intros Hj. induction n as [|n IH]; intros i.
  - destruct i as [|i]; [done|]. cbn. done.
  - unfold exactly. cbn [placements]. rewrite exactly_gen by apply NoDup_seq. rewrite seq_length. rewrite decide_True. 2: { apply elem_of_list_In, in_seq. lia. }
    rewrite IH. destruct i as [|i].
    + rewrite !choose_0. rewrite !Nat.sub_0_r, Nat2N.inj_succ, N.pow_succ_r'. lia.
    + rewrite IH. cbn [choose]. replace (S n - S i)%nat with (n - i)%nat by lia. rewrite N.mul_add_distr_r. f_equal. destruct (decide (n < S i)%nat) as [H|H].
      * rewrite (choose_big n (S i)) by done. lia.
      * replace (n - i)%nat with (S (n - S i)) by lia. rewrite Nat2N.inj_succ, N.pow_succ_r'. lia.
Qed.

(** ** The union bound *)
Definition sumN (g : nat -> N) (l : list nat) : N := foldr (fun i acc => g i + acc) 0 l.
Lemma sumN_app g l l' : sumN g (l ++ l') = sumN g l + sumN g l'.
Proof. induction l as [|a l IH]; [done|]. cbn. unfold sumN in *. rewrite IH. lia. Qed.
Lemma cnt_exists {A} (p : nat -> A -> bool) (l : list A) js : cnt (fun x => existsb (fun j => p j x) js) l <= sumN (fun j => cnt (p j) l) js.
Proof.
  induction l as [|a l IH].
  - unfold cnt at 1. cbn. lia.
  - rewrite cnt_cons. assert (sumN (fun j => cnt (p j) (a :: l)) js = sumN (fun j => if p j a then 1 else 0) js + sumN (fun j => cnt (p j) l) js) as ->.
    { clear. induction js as [|j js IH]; [done|]. cbn [sumN foldr]. unfold sumN in IH. rewrite IH, cnt_cons. lia. }
    assert ((if existsb (fun j => p j a) js then 1 else 0) <= sumN (fun j => if p j a then 1 else 0) js); [|lia].
    clear. induction js as [|j js IH]; [done|]. cbn [existsb sumN foldr]. unfold sumN in IH. destruct (p j a); cbn [orb]; lia.
Qed.
Lemma load_le f j : (load f j <= length f)%nat.
Proof. unfold load. induction f as [|a f IH]; [done|]. cbn. destruct (j =? a)%nat; cbn; lia. Qed.
Lemma cnt_range {A} (q : A -> nat) l s k : Forall (fun x => q x < s + k)%nat l -> cnt (fun x => s <=? q x)%nat l = sumN (fun i => cnt (fun x => q x =? i)%nat l) (seq s k).
Proof.
  intros Hl. induction Hl as [|a l Ha Hl IH].
  - unfold cnt at 1. cbn [List.filter length]. generalize (seq s k). intros js. induction js as [|j js IH']; [done|]. cbn [sumN foldr]. unfold sumN in IH'. rewrite <- IH'. done.
  - rewrite cnt_cons, IH. assert (sumN (fun i => cnt (fun x => q x =? i)%nat (a :: l)) (seq s k) = sumN (fun i => if (q a =? i)%nat then 1 else 0) (seq s k) + sumN (fun i => cnt (fun x => q x =? i)%nat l) (seq s k)) as ->.
    { clear. generalize (seq s k). intros js. induction js as [|j js IH]; [done|]. cbn [sumN foldr]. unfold sumN in IH. rewrite IH, cnt_cons. lia. }
    f_equal. clear IH Hl l. revert s Ha. induction k as [|k IHk]; intros s Ha.
    + cbn. rewrite (proj2 (Nat.leb_gt _ _)) by lia. done.
    + cbn [seq sumN foldr]. change (foldr (fun i acc => (if (q a =? i)%nat then 1 else 0) + acc) 0 (seq (S s) k)) with (sumN (fun i => if (q a =? i)%nat then 1 else 0) (seq (S s) k)). rewrite <- (IHk (S s)) by lia.
      destruct (Nat.eqb_spec (q a) s), (Nat.leb_spec s (q a)), (Nat.leb_spec (S s) (q a)); lia.
Qed.
(** The full sum: [numBins] times the probability that one bin overflows. *)
Lemma union_bound b n size : overflowCount b n size <= sumN (term (N.of_nat b) n) (seq (S size) (n - size)).
Proof.
  unfold overflowCount, overflows. change (N.of_nat (length (List.filter ?p ?l))) with (cnt p l). etransitivity; [apply cnt_exists|].
  assert (forall js, Forall (fun j => j < b)%nat js -> sumN (fun j => cnt (fun f => size <? load f j)%nat (placements b n)) js <= N.of_nat (length js) * sumN (fun i => choose n i * (N.of_nat b - 1) ^ N.of_nat (n - i)) (seq (S size) (n - size))) as H.
  { intros js Hjs. induction Hjs as [|j js Hj Hjs IH]; [done|]. cbn [length]. cbn [sumN foldr]. unfold sumN at 1 in IH.
    enough (cnt (fun f => size <? load f j)%nat (placements b n) <= sumN (fun i => choose n i * (N.of_nat b - 1) ^ N.of_nat (n - i)) (seq (S size) (n - size))) by lia.
    destruct (Nat.le_gt_cases size n) as [Hs|Hs].
    - rewrite (cnt_ext _ (fun f => S size <=? load f j)%nat) by done. rewrite (cnt_range (fun f => load f j) _ (S size) (n - size)).
      + apply N.eq_le_incl. generalize (seq (S size) (n - size)). intros l. induction l as [|i l IHl]; [done|]. cbn [sumN foldr]. unfold sumN in IHl. rewrite IHl. f_equal. by apply exactly_choose.
      + apply Forall_forall. intros f Hf. apply elem_placements in Hf as [<- _]. pose proof (load_le f j). lia.
    - assert (cnt (fun f => size <? load f j)%nat (placements b n) = 0) as ->; [|lia]. assert (forall l, Forall (fun f => load f j <= size)%nat l -> cnt (fun f => size <? load f j)%nat l = 0) as H0.
      { intros l Hl. induction Hl as [|f l Hf Hl IHl]; [done|]. rewrite cnt_cons, IHl. by rewrite (proj2 (Nat.ltb_ge _ _)). }
      apply H0, Forall_forall. intros f Hf. apply elem_placements in Hf as [<- _]. pose proof (load_le f j). lia. }
  etransitivity; [apply H|].
  - apply Forall_forall. intros j Hj. apply elem_of_list_In, in_seq in Hj. lia.
  - rewrite seq_length. apply N.eq_le_incl. generalize (seq (S size) (n - size)). intros l. induction l as [|i l IHl]; [cbn; lia|]. cbn [sumN foldr]. unfold sumN in IHl. rewrite N.mul_add_distr_l, IHl. done.
Qed.
