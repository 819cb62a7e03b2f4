(** Lemmas for GrrSend_Properties.v. *)
From Verif Require Import Base GrrSend_Model GrrSend_Spec.
Local Open Scope nat_scope.

Lemma total_cons x l : total (x :: l) = x + total l.
Proof. done. Qed.
Lemma total_app a b : total (a ++ b) = total a + total b.
Proof. induction a as [|x a IH]; [done|]. rewrite <- app_comm_cons, !total_cons. lia. Qed.
#[local] Instance total_perm : Proper ((≡ₚ) ==> (=)) total.
Proof. induction 1; rewrite ?total_cons; lia. Qed.
Lemma fold_total {A} (f : A -> nat) (l : list A) s : fold_left (fun s b => s + f b) l s = s + total (map f l).
Proof. revert s. induction l as [|x l IH]; intros s; cbn [fold_left map]; rewrite ?total_cons; [cbn; lia|]. rewrite IH. lia. Qed.
Lemma localMasks_spec bins : localMasks bins = pairsOf bins.
Proof. unfold localMasks, pairsOf. by rewrite (fold_total (fun b : nat * nat => b.1 * b.2)). Qed.
Lemma maskRows_spec threads s : maskRows threads s = total (map pairsOf threads) + s.
Proof. unfold maskRows. rewrite (fold_total localMasks). cbn. f_equal. f_equal. apply map_ext, localMasks_spec. Qed.

Lemma loadLoop_rows load ot row : map uRow (loadLoop load ot row) = seq row load.
Proof. revert ot row. induction load as [|k IH]; intros ot row; [done|]. cbn. by rewrite IH. Qed.
Lemma loadLoop_ots load ot row : map uOt (loadLoop load ot row) = seq ot load.
Proof. revert ot row. induction load as [|k IH]; intros ot row; [done|]. cbn. by rewrite IH. Qed.
Lemma itemLoop_row items load ot row : (itemLoop items load ot row).2 = row + items * load.
Proof.
  revert row. induction items as [|k IH]; intros row; cbn; [lia|]. specialize (IH (row + load)). destruct (itemLoop k load ot (row + load)) as [us r]. cbn in *. lia.
Qed.
Lemma itemLoop_rows items load ot row : map uRow (itemLoop items load ot row).1 = seq row (items * load).
Proof.
  revert row. induction items as [|k IH]; intros row; [done|]. cbn. specialize (IH (row + load)). destruct (itemLoop k load ot (row + load)) as [us r]. cbn in *.
  rewrite map_app, loadLoop_rows, IH. by rewrite <- seq_app.
Qed.
Lemma itemLoop_ots items load ot row o : o ∈ map uOt (itemLoop items load ot row).1 <-> items <> 0 /\ ot <= o < ot + load.
Proof.
  revert row. induction items as [|k IH]; intros row; cbn; [rewrite elem_of_nil; lia|]. specialize (IH (row + load)). destruct (itemLoop k load ot (row + load)) as [us r]. cbn in *.
  rewrite map_app, elem_of_app, loadLoop_ots, IH, elem_of_seq. lia.
Qed.
Lemma binLoop_rows bins ot row : map uRow (binLoop bins ot row) = seq row (pairsOf bins).
Proof.
  revert ot row. induction bins as [|[items load] bins IH]; intros ot row; [done|]. cbn [binLoop]. pose proof (itemLoop_rows items load ot row) as Hr.
  pose proof (itemLoop_row items load ot row) as Hn. destruct (itemLoop items load ot row) as [us r]. cbn in Hr, Hn. subst r.
  rewrite map_app, Hr, IH. change (pairsOf ((items, load) :: bins)) with (items * load + pairsOf bins). by rewrite seq_app.
Qed.
Lemma binLoop_ots bins ot row o : o ∈ map uOt (binLoop bins ot row) <->
  exists before items load after, bins = before ++ (items, load) :: after /\ items <> 0 /\ ot + total (map snd before) <= o < ot + total (map snd before) + load.
Proof.
  revert ot row. induction bins as [|[items load] bins IH]; intros ot row.
  - cbn. rewrite elem_of_nil. split; [done|]. intros (b & i & l & a & H & _). by destruct b.
  - cbn [binLoop]. pose proof (itemLoop_ots items load ot row o) as Hr. destruct (itemLoop items load ot row) as [us r]. cbn in Hr.
    rewrite map_app, elem_of_app, Hr, IH. split.
    + intros [[H1 H2]|(b & i & l & a & -> & H1 & H2)].
      * exists [], items, load, bins. cbn [map]. change (total []) with 0. split; [done|]. lia.
      * exists ((items, load) :: b), i, l, a. cbn [map snd]. rewrite total_cons. split; [done|]. lia.
    + intros (b & i & l & a & H & H1 & H2). destruct b as [|[i0 l0] b]; cbn in H.
      * injection H as -> -> ->. left. cbn [map] in H2. change (total []) with 0 in H2. lia.
      * injection H as -> -> ->. right. exists b, i, l, a. cbn [map snd] in H2. rewrite total_cons in H2. split; [done|]. lia.
Qed.

Lemma fetchRows_rows threads order idx :
  concat (map (fun f : nat * nat => map (fun u : nat * use => uRow u.2) (map (pair f.1) (binLoop (default [] (threads !! f.1)) 0 f.2))) (fetchRows threads order idx)) =
  seq idx (total (map (fun t => pairsOf (default [] (threads !! t))) order)).
Proof.
  revert idx. induction order as [|t o IH]; intros idx; [done|]. cbn [fetchRows map concat fst snd]. rewrite IH, map_map.
  replace (map (fun x : use => uRow (t, x).2) (binLoop (default [] (threads !! t)) 0 idx)) with (map uRow (binLoop (default [] (threads !! t)) 0 idx)) by done.
  rewrite binLoop_rows, localMasks_spec. cbn [total fold_right map]. by rewrite seq_app.
Qed.
Lemma map_seq_lookup {A B} (f : A -> B) d (l : list A) : map (fun t => f (default d (l !! t))) (seq 0 (length l)) = map f l.
Proof. induction l as [|x l IH]; [done|]. cbn. f_equal. rewrite <- IH, <- seq_shift, map_map. done. Qed.
Lemma total_order threads order : order ≡ₚ seq 0 (length threads) -> total (map (fun t => pairsOf (default [] (threads !! t))) order) = total (map pairsOf threads).
Proof. intros H. rewrite H. by rewrite (map_seq_lookup pairsOf []). Qed.
Lemma allUses_rows threads order : order ≡ₚ seq 0 (length threads) -> map (fun u : nat * use => uRow u.2) (allUses threads order) = seq 0 (total (map pairsOf threads)).
Proof. intros H. unfold allUses. rewrite concat_map, map_map, fetchRows_rows. by rewrite (total_order threads order H). Qed.
Lemma fetchRows_fst threads order idx : map fst (fetchRows threads order idx) = order.
Proof. revert idx. induction order as [|t o IH]; intros idx; [done|]. cbn. by rewrite IH. Qed.
Lemma allUses_ots threads order t o : (exists r, (t, mkUse o r) ∈ allUses threads order) <->
  t ∈ order /\ exists before items load after, default [] (threads !! t) = before ++ (items, load) :: after /\ items <> 0 /\
    total (map snd before) <= o < total (map snd before) + load.
Proof.
  unfold allUses. split.
  - intros [r H]. apply elem_of_list_In, in_concat in H as (z & Hz & H). apply in_map_iff in Hz as ([t' idx] & <- & Hf). cbn in H.
    apply in_map_iff in H as (u & Hu & H). injection Hu as -> ->. split.
    + rewrite <- (fetchRows_fst threads order 0). apply elem_of_list_In. apply (in_map fst) in Hf. exact Hf.
    + apply (in_map uOt) in H. apply elem_of_list_In in H. by apply binLoop_ots in H.
  - intros [Ht H]. rewrite <- (fetchRows_fst threads order 0) in Ht. apply elem_of_list_In, in_map_iff in Ht as ([t' idx] & E & Hf). cbn in E. subst t'.
    apply (binLoop_ots _ 0 idx o) in H. apply elem_of_list_In, in_map_iff in H as ([o' r] & E & H). cbn in E. subst o'. exists r.
    apply elem_of_list_In, in_concat. eexists. split; [apply in_map_iff; exists (t, idx); split; [reflexivity|exact Hf]|]. cbn. by apply in_map.
Qed.

Lemma senderMasks_iff threads totals order surplus : order ≡ₚ seq 0 (length threads) -> (0 <= surplus)%Z ->
  (senderMasks threads totals order surplus = Done (allUses threads order) <-> forall t bins, threads !! t = Some bins -> covers (default 0 (totals !! t)) bins) /\
  (senderMasks threads totals order surplus <> Done (allUses threads order) -> senderMasks threads totals order surplus = UB).
Proof.
  intros HO HS. unfold senderMasks. replace (surplus <? 0)%Z with false by (symmetry; apply Z.ltb_ge; lia).
  split; [|by destruct (forallb _ _)].
  assert (forall t, t ∈ order <-> t < length threads) as HT.
  { intros t. rewrite HO, elem_of_seq. lia. }
  split.
  - intros H t bins Hb before items load after E H1 H2. destruct (forallb _ _) eqn:F; [|done]. rewrite forallb_forall in F.
    destruct (proj2 (allUses_ots threads order t (total (map snd before) + (load - 1)))) as [r Hr].
    { split; [apply HT; by apply lookup_lt_Some in Hb|]. exists before, items, load, after. rewrite Hb. cbn. split; [done|]. lia. }
    apply elem_of_list_In in Hr. apply F in Hr. cbn in Hr. apply andb_true_iff in Hr as [Hr _]. apply Nat.ltb_lt in Hr. lia.
  - intros H. assert (forallb (fun u : nat * use => (uOt u.2 <? default 0 (totals !! u.1)) && (uRow u.2 <? maskRows threads (Z.to_nat surplus))) (allUses threads order) = true) as ->; [|done].
    apply forallb_forall. intros [t [o r]] Hu. cbn. apply andb_true_iff. split; apply Nat.ltb_lt.
    + apply elem_of_list_In in Hu. destruct (proj1 (allUses_ots threads order t o) (ex_intro _ r Hu)) as (Ht & b & i & l & a & E & H1 & H2).
      destruct (threads !! t) as [bins|] eqn:Hb; cbn in E; [|by destruct b]. specialize (H t bins Hb b i l a E H1). lia.
    + apply (in_map (fun u : nat * use => uRow u.2)) in Hu. rewrite (allUses_rows threads order HO) in Hu. apply in_seq in Hu. cbn in Hu. rewrite maskRows_spec. lia.
Qed.
Lemma enough_covers n bins : total (map snd bins) <= n -> covers n bins.
Proof. intros H b i l a -> _ _. rewrite map_app, total_app in H. cbn [map snd] in H. rewrite total_cons in H. lia. Qed.
