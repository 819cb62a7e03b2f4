(** Property theorems about the receivers of RR17b and GRR18 on freely chosen messages (C202, C204). *)
From Verif Require Import Base Foreign_Spec Foreign2_Model Foreign2_Spec Foreign2_Proofs Foreign2_Proofs2.
From Verif Require Rr17_Model Rr17a_Model Rr17a_Spec Rr17a_Properties Rr17b_Model Rr17b_Spec Rr17b_Properties Grr18_Model Grr18_Spec Grr18_Properties.

(** * C202 *)

(** ** RR17b *)

(** [chan]: any messages of the expected sizes. Their contents never stop the receiver. *)
Theorem C202_rr17b_partial ss P rd R chan old : Rr17b_Spec.paramsOk P R -> Rr17b_Model.rOrdR rd ≡ₚ seq 0 (Rr17b_Model.pN P) ->
  (forall t l, Rr17b_Model.rTab rd t l ≡ₚ l) -> (forall t, t ∈ Rr17b_Model.rOut rd -> (t < Rr17b_Model.pT P)%nat) ->
  (forall u, Rr17b_Model.Insert u ∈ Rr17b_Model.rSched rd -> (u < Rr17b_Model.pT P)%nat) ->
  let size := (20 + 20 * Rr17b_Model.pCap P)%nat in
  let chunks t := Rr17b_Model.channelChunks ss (Rr17b_Model.pN P) (Rr17b_Model.pT P) t in
  (forall t, t ∈ Rr17b_Model.rOut rd -> Forall2 (fun c m => length m = (c.2 * size)%nat) (chunks t) (chan t)) ->
  let rows := concat (map (fun t => concat (zip_with (fun c m => rowsOf size c.2 m) (chunks t) (chan t))) (Rr17b_Model.rOut rd)) in
  exists new, rr17bReceive ss P rd R chan old = Done (old ++ new) /\ (length new <= length rows)%nat /\
    forall p, p ∈ new -> p < N.of_nat (length R) /\
      opened (Rr17b_Model.pEnc P) (Rr17b_Model.pCom P) (Rr17b_Model.otInput P) (Rr17b_Model.pT P) (Rr17b_Model.pCap P) R rows (N.to_nat p).
Proof.
  intros HR HO HTab HTh HU size chunks HC rows. assert (size = Rr17b_Model.setSize (Rr17b_Model.pCap P)) as ES by (unfold size, Rr17b_Model.setSize; lia).
  unfold rows. rewrite ES in *. exact (rr17b_opened ss P rd R chan old HR HO HTab HTh HU HC).
Qed.
Print Assumptions C202_rr17b_partial.
Definition bP : Rr17b_Model.params := Rr17b_Properties.exP true 4 4 3 1.
Definition bRd : Rr17b_Model.rand := Rr17b_Properties.exRd 4 4 3 1.
(** The row a sender makes for the item 9 with decommitment value 1000. *)
Definition bRow : list N := Rr17b_Model.itemRow bP (fun _ => 1000) [9] 0 (3 * Rr17b_Model.itemBin bP 9)%nat 0.
Definition bJunk : list N := replicate 80 7.
Example C202_rr17b_example : Rr17b_Spec.paramsOk bP [4; 9; 16; 25] /\ Rr17b_Model.channelChunks 3 4 1 0 = [(0, 3); (3, 1)]%nat /\
  rr17bReceive 3 bP bRd [4; 9; 16; 25] (fun _ => [bJunk ++ bRow ++ bJunk; bJunk]) [5] = Done [5; 1].
Proof. split; [by apply Rr17b_Properties.exP_ok; vm_compute|]. split; vm_compute; reflexivity. Qed.

(** A repeated row makes the receiver report a position twice. *)
Theorem C202_rr17b_repeated_refuted : exists ss P rd R chan out, Rr17b_Spec.paramsOk P R /\ rr17bReceive ss P rd R chan [] = Done out /\ repeated [] out.
Proof.
  exists 3%nat, bP, bRd, [4; 9; 16; 25], (fun _ => [bJunk ++ bRow ++ bRow; bJunk]). eexists. split; [apply C202_rr17b_example|]. split; [vm_compute; reflexivity|].
  exists [1; 1]. split; [done|]. intros H. apply NoDup_cons in H as [H _]. apply H. left.
Qed.
Print Assumptions C202_rr17b_repeated_refuted.

(** ** GRR18 *)

(** [theirs]: the announced loads, at most [mMaxBinSize]; [chan]: any masks. No key of a possible mask of an own item is 0, the empty key of the map. *)
Theorem C202_grr18_partial P rd wr ownR theirs R chan old : let lR := Grr18_Model.recvLoads ownR theirs in
  Rr17a_Spec.paramsOk P R -> Grr18_Spec.loadsOk P R ownR -> length theirs = Rr17a_Model.pNb P -> (forall b l, theirs !! b = Some l -> (l <= Rr17a_Model.pCap P)%nat) ->
  (forall b l, lR !! b = Some l -> Grr18_Model.gShufR rd b ≡ₚ seq 0 l) -> Grr18_Model.gOrdR rd ≡ₚ seq 0 (Rr17a_Model.pN P) ->
  (forall batches, Grr18_Model.gIns rd batches ≡ₚ batches) -> wr ≡ₚ seq 0 (Rr17a_Model.pT P) ->
  (forall x, x ∈ R -> 0 ∉ map (Grr18_Spec.keyOf P) (Grr18_Spec.grrMasks P lR theirs x)) ->
  exists out, grrReceive P rd wr ownR theirs R chan old = Done out /\
    earned (length R) (listOwn (Grr18_Spec.grrMasks P lR theirs) (Rr17a_Model.pMask P) R) (concat (map chan (Grr18_Model.gOut rd))) old out.
Proof. exact (grr_earned P rd wr ownR theirs R chan old). Qed.
Print Assumptions C202_grr18_partial.
Definition gP : Rr17a_Model.params := Rr17a_Properties.exP true 4 4 3 1.
Definition gSet : list N := [4; 9; 16; 24].
Definition gOwn : list nat := [3; 2; 2; 2]%nat.
Definition gRd (theirs : list nat) : Grr18_Model.grrRand := Grr18_Properties.exGrr 4 1 (Grr18_Model.recvLoads gOwn theirs) theirs 0 (fun _ => 0).
(** A mask of the item 9. *)
Definition gMask : N := 6476638884003846.
Example C202_grr18_example : Rr17a_Spec.paramsOk gP gSet /\ Grr18_Spec.loadsOk gP gSet gOwn /\
  (forall x, x ∈ gSet -> 0 ∉ map (Grr18_Spec.keyOf gP) (Grr18_Spec.grrMasks gP (Grr18_Model.recvLoads gOwn [3; 3; 3; 2]%nat) [3; 3; 3; 2]%nat x)) /\
  grrReceive gP (gRd [3; 3; 3; 2]%nat) [0]%nat gOwn [3; 3; 3; 2]%nat gSet (fun _ => [7; 6476638884003845; 8]) [5] = Done [5; 1].
Proof.
  split; [apply Rr17a_Properties.paramsOkb_ok; vm_compute; reflexivity|]. split; [by apply Grr18_Properties.loadsOkb_ok; vm_compute|]. split; [|vm_compute; reflexivity].
  intros x Hx. unfold gSet in Hx. repeat (apply elem_of_cons in Hx as [->|Hx]; [apply (bool_decide_eq_true_1 _); vm_compute; reflexivity|]). by apply elem_of_nil in Hx.
Qed.

(** A repeated mask makes the receiver report a position twice. *)
Theorem C202_grr18_repeated_refuted : exists P rd wr ownR theirs R chan out, Rr17a_Spec.paramsOk P R /\ Grr18_Spec.loadsOk P R ownR /\
  (forall b l, theirs !! b = Some l -> (l <= Rr17a_Model.pCap P)%nat) /\ grrReceive P rd wr ownR theirs R chan [] = Done out /\ repeated [] out.
Proof.
  exists gP, (gRd [3; 3; 3; 2]%nat), [0]%nat, gOwn, [3; 3; 3; 2]%nat, gSet, (fun _ => [6476638884003845; 6476638884003845]). eexists. split; [apply C202_grr18_example|].
  split; [apply C202_grr18_example|]. split; [|split; [vm_compute; reflexivity|]].
  - intros b l E. do 4 (destruct b as [|b]; [injection E as <-; cbn; lia|]). done.
  - exists [1; 1]. split; [done|]. intros H. apply NoDup_cons in H as [H _]. apply H. left.
Qed.
Print Assumptions C202_grr18_repeated_refuted.

(** An announced load above [mMaxBinSize]: the receiver reports an item (16, at position 2) for a mask that is none of its masks; it is a mask of the item 9. *)
Theorem C202_grr18_loads_refuted : exists P rd ownR theirs R m out, let lR := Grr18_Model.recvLoads ownR theirs in
  Rr17a_Spec.paramsOk P R /\ Grr18_Spec.loadsOk P R ownR /\ length theirs = Rr17a_Model.pNb P /\
  (forall b l, lR !! b = Some l -> Grr18_Model.gShufR rd b ≡ₚ seq 0 l) /\ Grr18_Model.gOrdR rd ≡ₚ seq 0 (Rr17a_Model.pN P) /\
  (forall x, x ∈ R -> 0 ∉ map (Grr18_Spec.keyOf P) (Grr18_Spec.grrMasks P lR theirs x)) /\
  grrReceive P rd [0]%nat ownR theirs R (fun _ => [m]) [] = Done out /\
  ~ earned (length R) (listOwn (Grr18_Spec.grrMasks P lR theirs) (Rr17a_Model.pMask P) R) [m] [] out.
Proof.
  exists gP, (gRd [3; 4; 3; 2]%nat), gOwn, [3; 4; 3; 2]%nat, gSet, 6476638884069382. eexists. cbv zeta. split; [apply C202_grr18_example|]. split; [apply C202_grr18_example|]. split; [done|].
  split; [intros b l E; unfold gRd, Grr18_Properties.exGrr, Grr18_Model.gShufR, Grr18_Model.ld; rewrite E; by rewrite <- Permutation_rev|]. split; [done|]. split.
  { intros x Hx. unfold gSet in Hx. repeat (apply elem_of_cons in Hx as [->|Hx]; [apply (bool_decide_eq_true_1 _); vm_compute; reflexivity|]). by apply elem_of_nil in Hx. }
  split; [vm_compute; reflexivity|]. intros (new & E & _ & H). cbn [app] in E. subst new. destruct (H 2 ltac:(left)) as (_ & m & Hm & x & m' & Ex & Hm' & Em).
  apply elem_of_list_singleton in Hm as ->. vm_compute in Ex. injection Ex as <-.
  assert (Forall (fun m' => m' mod 2 ^ (8 * Rr17a_Model.pMask gP) <> 6476638884069382) (Grr18_Spec.grrMasks gP (Grr18_Model.recvLoads gOwn [3; 4; 3; 2]%nat) [3; 4; 3; 2]%nat 16)) as F
    by (apply (bool_decide_eq_true_1 _); vm_compute; reflexivity).
  rewrite Forall_forall in F. by apply (F m').
Qed.
Print Assumptions C202_grr18_loads_refuted.

(** * C204 *)

(** Announced loads of at most [mMaxBinSize]: all masks are written inside [masks] (the receiver does not end with undefined behaviour). *)
Theorem C204_loads_partial P rd wr ownR theirs R chan old : let lR := Grr18_Model.recvLoads ownR theirs in
  Rr17a_Spec.paramsOk P R -> Grr18_Spec.loadsOk P R ownR -> length theirs = Rr17a_Model.pNb P -> (forall b l, theirs !! b = Some l -> (l <= Rr17a_Model.pCap P)%nat) ->
  (forall b l, lR !! b = Some l -> Grr18_Model.gShufR rd b ≡ₚ seq 0 l) -> Grr18_Model.gOrdR rd ≡ₚ seq 0 (Rr17a_Model.pN P) ->
  (forall batches, Grr18_Model.gIns rd batches ≡ₚ batches) -> wr ≡ₚ seq 0 (Rr17a_Model.pT P) ->
  (forall x, x ∈ R -> 0 ∉ map (Grr18_Spec.keyOf P) (Grr18_Spec.grrMasks P lR theirs x)) ->
  grrReceive P rd wr ownR theirs R chan old <> UB.
Proof. intros lR H1 H2 H3 H4 H5 H6 H7 H8 H9. destruct (grr_earned P rd wr ownR theirs R chan old H1 H2 H3 H4 H5 H6 H7 H8 H9) as (out & -> & _). done. Qed.
Print Assumptions C204_loads_partial.
Example C204_example : exists out, grrReceive gP (gRd [3; 3; 3; 2]%nat) [0]%nat gOwn [3; 3; 3; 2]%nat gSet (fun _ => [1; 2; 3]) [5] = Done out.
Proof. eexists. vm_compute. reflexivity. Qed.

(** A load announced by one too much, for the bin of the last item. *)
Theorem C204_loads_refuted : exists P rd ownR theirs R, let lR := Grr18_Model.recvLoads ownR theirs in
  Rr17a_Spec.paramsOk P R /\ Grr18_Spec.loadsOk P R ownR /\ length theirs = Rr17a_Model.pNb P /\ Forall (fun l => l <= 255)%nat theirs /\
  (forall b l, lR !! b = Some l -> Grr18_Model.gShufR rd b ≡ₚ seq 0 l) /\ Grr18_Model.gOrdR rd ≡ₚ seq 0 (Rr17a_Model.pN P) /\
  (forall x, x ∈ R -> 0 ∉ map (Grr18_Spec.keyOf P) (Grr18_Spec.grrMasks P lR theirs x)) /\
  grrReceive P rd [0]%nat ownR theirs R (fun _ => []) [] = UB.
Proof.
  exists gP, (gRd [3; 4; 3; 2]%nat), gOwn, [3; 4; 3; 2]%nat, [4; 9; 16; 25]. cbv zeta. split; [apply Rr17a_Properties.paramsOkb_ok; vm_compute; reflexivity|].
  split; [by apply Grr18_Properties.loadsOkb_ok; vm_compute|]. split; [done|]. split; [repeat constructor; lia|].
  split; [intros b l E; unfold gRd, Grr18_Properties.exGrr, Grr18_Model.gShufR, Grr18_Model.ld; rewrite E; by rewrite <- Permutation_rev|]. split; [done|]. split; [|vm_compute; reflexivity].
  intros x Hx. unfold gSet in Hx. repeat (apply elem_of_cons in Hx as [->|Hx]; [apply (bool_decide_eq_true_1 _); vm_compute; reflexivity|]). by apply elem_of_nil in Hx.
Qed.
Print Assumptions C204_loads_refuted.
(** A message with one load too few. *)
Theorem C204_short_refuted : exists P rd ownR theirs R, let lR := Grr18_Model.recvLoads ownR theirs in
  Rr17a_Spec.paramsOk P R /\ Grr18_Spec.loadsOk P R ownR /\ Forall (fun l => l <= Rr17a_Model.pCap P)%nat theirs /\ (length theirs < Rr17a_Model.pNb P)%nat /\
  Grr18_Model.gOrdR rd ≡ₚ seq 0 (Rr17a_Model.pN P) /\ grrReceive P rd [0]%nat ownR theirs R (fun _ => []) [] = UB.
Proof.
  exists gP, (gRd [3; 3; 3]%nat), gOwn, [3; 3; 3]%nat, gSet. cbv zeta. split; [apply C202_grr18_example|]. split; [apply C202_grr18_example|].
  split; [repeat constructor; cbn; lia|]. split; [cbn; lia|]. split; [done|]. vm_compute. reflexivity.
Qed.
Print Assumptions C204_short_refuted.
