(** ECDH, DCW, DKT and RR16 send the masks in the order of the input. *)
From Verif Require Import Base Partition_Model Partition_Proofs Ecdh_Proofs Dcw_Spec Dcw_Proofs Order_Spec OrderInput_Spec Order_Proofs.
From Verif Require Ecdh_Model Dcw_Model Dkt_Model Dkt_Proofs Rr16_Model.

Lemma mapM_ranges {B} (f : N -> option B) (S : list N) (d : B) n T res : (0 < T)%nat -> N.of_nat n * N.of_nat T < 2 ^ 64 -> length S = n ->
  mapM (fun t => mapM (fun i => match S !! i with Some x => f x | None => None end) (Ecdh_Model.idxRange n T t)) (seq 0 T) = Some res ->
  concat res = map (fun x => default d (f x)) S.
Proof.
  intros HT Hw HL E.
  assert (forall idx r, mapM (fun i => match S !! i with Some x => f x | None => None end) idx = Some r -> r = map (fun i => default d (f (default 0 (S !! i)))) idx) as Hin.
  { intros idx. induction idx as [|i idx IH]; intros r Er; cbn in Er; [by injection Er as <-|]. destruct (S !! i) as [x|] eqn:Ex; [|done]. cbn in Er.
    destruct (f x) as [y|] eqn:Ef; [|done]. cbn in Er. destruct (mapM _ idx) as [r'|] eqn:Em; [|done]. cbn in Er. injection Er as <-. cbn. rewrite Ex. cbn. unfold id. rewrite Ef. cbn. f_equal. by apply IH. }
  assert (forall ts r, mapM (fun t => mapM (fun i => match S !! i with Some x => f x | None => None end) (Ecdh_Model.idxRange n T t)) ts = Some r ->
    concat r = map (fun i => default d (f (default 0 (S !! i)))) (concat (map (Ecdh_Model.idxRange n T) ts))) as Hts.
  { induction ts as [|t ts IH]; intros r Er; cbn in Er; [by injection Er as <-|]. destruct (mapM _ (Ecdh_Model.idxRange n T t)) as [a|] eqn:Ea; [|done]. cbn in Er.
    destruct (mapM _ ts) as [r'|] eqn:Em; [|done]. cbn in Er. injection Er as <-. cbn [concat map]. rewrite map_app, (IH r' eq_refl). by rewrite (Hin _ _ Ea). }
  rewrite (Hts _ _ E), (idxRange_concat n T HT Hw), <- HL. rewrite <- (map_map (fun i => default 0 (S !! i)) (fun x => default d (f x))). f_equal.
  apply list_eq. intros i. rewrite (list_lookup_fmap (fun i => default 0 (S !! i))). destruct (decide (i < length S)%nat) as [H|H].
  - rewrite lookup_seq_lt by done. cbn. by destruct (lookup_lt_is_Some_2 S i H) as [x ->].
  - rewrite lookup_seq_ge by lia. cbn. symmetry. apply lookup_ge_None_2. lia.
Qed.
Lemma mapM_Some_map {A B} (f : A -> option B) (d : B) l r : mapM f l = Some r -> r = map (fun x => default d (f x)) l.
Proof.
  revert r. induction l as [|x l IH]; intros r E; cbn in E; [by injection E as <-|]. destruct (f x) as [y|] eqn:Ef; [|done]. cbn in E.
  destruct (mapM f l) as [r'|] eqn:Em; [|done]. cbn in E. injection E as <-. cbn. rewrite Ef. cbn. f_equal. by apply IH.
Qed.
Lemma mapM_ext' {A B} (f g : A -> option B) l : (forall x, f x = g x) -> mapM f l = mapM g l.
Proof. intros H. induction l as [|x l IH]; [done|]. cbn. by rewrite H, IH. Qed.

Lemma inputs_order T S sin : (0 < T)%nat -> N.of_nat (length S) * N.of_nat T < 2 ^ 64 ->
  mapM (fun t => Ecdh_Model.inputsAt S (Ecdh_Model.idxRange (length S) T t)) (seq 0 T) = Some sin -> concat sin = S.
Proof.
  intros HT Hw E. rewrite (mapM_ranges Some S 0 (length S) T sin HT Hw eq_refl).
  - cbn. apply map_id.
  - rewrite <- E. apply mapM_ext'. intros t. apply mapM_ext'. intros i. by destruct (S !! i).
Qed.

(** The senders' messages of masks in one list. *)
Lemma ecdh_order {P} (smul : P -> N -> P) pt enc roItem T a S msg : (0 < T)%nat -> N.of_nat (length S) * N.of_nat T < 2 ^ 64 ->
  ecdhSent smul pt enc roItem T a S = Some msg -> concat msg = map (Ecdh_Model.sendPoint smul pt enc roItem a) S.
Proof.
  intros HT Hw. unfold ecdhSent. destruct (mapM _ (seq 0 T)) as [sin|] eqn:E; [|done]. intros H. injection H as <-.
  rewrite concat_map_map. by rewrite (inputs_order T S sin HT Hw E).
Qed.
Lemma dcw_order aes prng s S corr theirs : Dcw_Model.senderMasks aes prng s S corr = Done theirs -> theirs = map (dcwMask aes prng s corr) S.
Proof.
  unfold Dcw_Model.senderMasks. destruct (negb _); [done|]. destruct (mapM _ S) as [r|] eqn:E; [|done]. intros H. injection H as <-. by apply mapM_Some_map.
Qed.
Lemma dkt_order D s T S m1 m2 v m : N.of_nat (length S) * N.of_nat T < 2 ^ 64 -> Dkt_Model.sendInputS D s T S m1 m2 = Done (Some (v, m)) ->
  concat (Dkt_Model.sTs m) = map (dktMask D s) S.
Proof.
  intros Hw. unfold Dkt_Model.sendInputS. destruct (Nat.eqb_spec T 0) as [|HT]; [done|]. destruct (Dkt_Model.threadItems T S) as [items|] eqn:E; [|done].
  destruct (negb _); [done|]. destruct (negb _); [done|]. intros H. injection H as _ <-. cbn [Dkt_Model.sTs]. rewrite concat_map_map.
  by rewrite (inputs_order T S items ltac:(lia) Hw E).
Qed.
Lemma rr16_order aes ro seed m nh T n msgs sampled S perm masks : (0 < T)%nat -> N.of_nat n * N.of_nat T < 2 ^ 64 ->
  Rr16_Model.senderRun aes ro seed m nh T n msgs sampled S perm = Done (Some masks) -> concat masks = map (rr16Mask aes ro seed m nh msgs perm) S.
Proof.
  intros HT Hw. unfold Rr16_Model.senderRun. destruct (Nat.eqb_spec (length S) n) as [HL|]; [|done]. cbn [negb orb]. destruct (negb _); [done|].
  destruct (mapM _ (seq 0 T)) as [r|] eqn:E; [|done]. destruct (Rr16_Model.validate perm sampled) as [[[]|]|[[]|]| |]; try done. intros H. injection H as <-.
  by apply (mapM_ranges (fun x => Rr16_Model.sendMask msgs perm (Rr16_Model.filterPos aes ro seed (N.of_nat m) nh x) 0) S 0 n T r).
Qed.

(** Two orders of the same set. *)
Lemma swapped_common : sameCommon [1; 3] [1; 2] [2; 1].
Proof.
  split; [by apply (bool_decide_unpack _)|]. split; [by apply (bool_decide_unpack _)|]. split; [done|].
  intros x _. rewrite !elem_of_cons. tauto.
Qed.
Lemma swapped_differ mask mask' : noMix mask [1; 3] [1; 2] -> noMix mask' [1; 3] [2; 1] ->
  sightOf mask [1; 3] (map mask [1; 2]) <> sightOf mask' [1; 3] (map mask' [2; 1]).
Proof. intros H H'. rewrite !sight_map by done. by vm_compute. Qed.
