(** Property theorems about the masks of items outside the receiver's set in DCW (C166) and RR16 (C167). *)
From Verif Require Import Base MaskHide_Spec MaskHide_Dcw.
From Verif Require Dcw_Model Dcw_Properties Rr16_Model.

(** * C166: DCW *)
Section dcw.
Import Dcw_Model.

(** [K]: the common items of a sender's set, [U]: the others, in an order in which each has a position of its own outside the filter. The masks of [U] take every
    combination of values, each for exactly one choice of the messages at these positions, which the receiver does not have; the masks of [K] stay. *)
Theorem C166_uniform_partial aes prng r R s corr mp mk K U ps vs : let pos := positions aes prng (drSeed r) (bfBits (drN r)) in
  (0 < drN r)%nat -> length (drMsgs r) = bfBits (drN r) -> length (drChoices r) = bfBits (drN r) -> recvFirst aes prng r R = Done (corr, mp, mk) ->
  dsN s = drN r -> dsSeed s = drSeed r -> length (dsMsgs s) = bfBits (drN r) -> length (K ++ U) = drN r -> (forall x, x ∈ K -> x ∈ R) ->
  freshPositions pos (fun p => exists x, x ∈ R /\ p ∈ pos x) U ps -> length vs = length U ->
  exists ks xs, length ks = length K /\ length xs = length ps /\
    (Forall (fun q => isBlock q.1 /\ isBlock q.2) (dsMsgs s) -> Forall isBlock vs -> Forall isBlock xs) /\
    forall xs', length xs' = length ps -> let s' := mkDcwSender (dsN s) (dsSeed s) (putOther (drChoices r) ps xs' (dsMsgs s)) in
      chosen (drChoices r) (dsMsgs s') = chosen (drChoices r) (dsMsgs s) /\
      (exists us, senderMasks aes prng s' (K ++ U) corr = Done (ks ++ us) /\ length us = length U) /\
      (senderMasks aes prng s' (K ++ U) corr = Done (ks ++ vs) <-> xs' = xs).
Proof. intros pos Hn HM HC. exact (dcw_masks aes prng r R Hn HM HC s corr mp mk K U ps vs). Qed.
Print Assumptions C166_uniform_partial.
(** An item all of whose positions are in the filter has a mask that what the receiver has determines, whether it is in the receiver's set or not. *)
Theorem C166_known_partial aes prng r R s s' corr mp mk S : let pos := positions aes prng (drSeed r) (bfBits (drN r)) in
  (0 < drN r)%nat -> length (drMsgs r) = bfBits (drN r) -> length (drChoices r) = bfBits (drN r) -> recvFirst aes prng r R = Done (corr, mp, mk) ->
  length S = drN r -> dsN s = drN r -> dsSeed s = drSeed r -> length (dsMsgs s) = bfBits (drN r) -> dsN s' = drN r -> dsSeed s' = drSeed r -> length (dsMsgs s') = bfBits (drN r) ->
  chosen (drChoices r) (dsMsgs s) = chosen (drChoices r) (dsMsgs s') ->
  exists us us', senderMasks aes prng s S corr = Done us /\ senderMasks aes prng s' S corr = Done us' /\
    forall i y, S !! i = Some y -> (forall p, p ∈ pos y -> exists x, x ∈ R /\ p ∈ pos x) -> us !! i = us' !! i.
Proof. intros pos Hn HM HC. exact (dcw_known aes prng r R Hn HM HC s s' corr mp mk S). Qed.
Print Assumptions C166_known_partial.

Import Dcw_Properties.
Definition r166 : dcwReceiver := default exNewR (recvInit exOt 2 3 77 88 exChoices exNewR).
Definition s166 : dcwSender := default exNewS (sendInit exOt 2 3 88 77 exNewS).
Definition pos166 (x : N) : list nat := positions exAes exPrng (drSeed r166) (bfBits (drN r166)) x.
(** The sets 10, 30 and 30, 99: position 223 is an own one of 99. *)
Example C166_example : freshPositions pos166 (fun p => exists x, x ∈ [10; 30] /\ p ∈ pos166 x) [99] [223%nat] /\
  length (drMsgs r166) = bfBits 2 /\ length (drChoices r166) = bfBits 2 /\ length (dsMsgs s166) = bfBits 2 /\ dsSeed s166 = drSeed r166 /\ drN r166 = 2%nat /\ dsN s166 = 2%nat /\
  match recvFirst exAes exPrng r166 [10; 30] with Done (corr, _, _) => senderMasks exAes exPrng s166 [30; 99] corr | _ => UB end = Done [1570; 1050567].
Proof.
  split.
  { split; [done|]. intros i p y Hi Hy. destruct i as [|i]; [|done]. injection Hi as <-. injection Hy as <-. split; [vm_compute; reflexivity|]. split.
    - intros (x & Hx & Hp). apply elem_of_cons in Hx as [->|Hx]; [|apply elem_of_list_singleton in Hx as ->]; revert Hp; apply (bool_decide_unpack _); vm_compute; reflexivity.
    - intros j y' Hj. lia. }
  do 6 (split; [vm_compute; reflexivity|]). vm_compute. reflexivity.
Qed.

(** So the mask of an item outside the receiver's set need not be unknown to the receiver: in the extreme case that all items have the same positions. *)
Definition aes0 (k x : N) : N := N.lxor x k.
Definition r167 : dcwReceiver := default exNewR (recvInit exOt 1 1 77 88 (replicate 192 true) exNewR).
Definition s167 : dcwSender := default exNewS (sendInit exOt 1 1 88 77 exNewS).
Theorem C166_hidden_refuted : exists aes prng r s R y corr mp mk u, recvFirst aes prng r R = Done (corr, mp, mk) /\ y ∉ R /\ dsN s = drN r /\ dsSeed s = drSeed r /\
  length (dsMsgs s) = bfBits (drN r) /\
  forall msgs, length msgs = length (dsMsgs s) -> chosen (drChoices r) msgs = chosen (drChoices r) (dsMsgs s) ->
    senderMasks aes prng (mkDcwSender (dsN s) (dsSeed s) msgs) [y] corr = Done [u].
Proof.
  destruct (recvFirst aes0 exPrng r167 [5]) as [[[corr mp] mk]| | |] eqn:E; [|exfalso; vm_compute in E; discriminate E..].
  destruct (senderMasks aes0 exPrng s167 [9] corr) as [[|u [|? ?]]| | |] eqn:Es; [exfalso; vm_compute in E; injection E as <- _ _; vm_compute in Es; discriminate Es| |exfalso; vm_compute in E; injection E as <- _ _; vm_compute in Es; discriminate Es..].
  exists aes0, exPrng, r167, s167, [5], 9, corr, mp, mk, u. split; [done|]. split; [apply (bool_decide_unpack _); vm_compute; reflexivity|].
  do 3 (split; [vm_compute; reflexivity|]). intros msgs Hl Hc.
  destruct (dcw_known aes0 exPrng r167 [5] ltac:(vm_compute; lia) ltac:(vm_compute; reflexivity) ltac:(vm_compute; reflexivity) s167 (mkDcwSender (dsN s167) (dsSeed s167) msgs) corr mp mk [9] E) as (us & us' & E1 & E2 & H);
    [vm_compute; reflexivity..|refine (eq_trans Hl _); vm_compute; reflexivity|symmetry; exact Hc|].
  rewrite E2. rewrite Es in E1. injection E1 as <-. specialize (H 0%nat 9 eq_refl). cbn [lookup list_lookup] in H.
  assert (length us' = 1%nat) as Hlen. { unfold senderMasks in E2. cbn [dsN negb] in E2. destruct (negb _) in E2; [done|]. destruct (mapM _ _) as [l|] eqn:Em in E2; [|done]. apply Done_inj in E2 as <-. apply mapM_length in Em. done. }
  destruct us' as [|u' [|? ?]]; [done| |done]. f_equal. f_equal. apply Some_inj. symmetry. apply H. intros p Hp. exists 5. split; [by left|]. revert p Hp. apply Forall_forall. 
  apply (bool_decide_unpack _). vm_compute. reflexivity.
Qed.
Print Assumptions C166_hidden_refuted.
End dcw.

(** * C167: RR16 *)
Section rr16.
Import Rr16_Model.

(** Whatever permutation the receiver sends, honest or not: [known] are the OTs of which the receiver may have the second message. *)
Theorem C167_uniform aes ro seed m nh perm msgs (known : nat -> Prop) (K U : list N) ps vs :
  let pos := fun y => map (fun p => N.to_nat (default 0 (perm !! N.to_nat p))) (filterPos aes ro seed (N.of_nat m) nh y) in
  let masks := fun msgs => mapM (fun y => sendMask msgs perm (filterPos aes ro seed (N.of_nat m) nh y) 0) (K ++ U) in
  (0 < m)%nat -> length perm = m -> (forall i, i ∈ perm -> (N.to_nat i < length msgs)%nat) ->
  (forall x i, x ∈ K -> i ∈ pos x -> known i) -> freshPositions pos known U ps -> length vs = length U ->
  exists ks xs, length ks = length K /\ length xs = length ps /\
    (Forall (fun q => isBlock q.1 /\ isBlock q.2) msgs -> Forall isBlock vs -> Forall isBlock xs) /\
    forall xs', length xs' = length ps -> let msgs' := putSecond ps xs' msgs in
      map fst msgs' = map fst msgs /\ (forall i, known i -> msgs' !! i = msgs !! i) /\
      (exists us, masks msgs' = Some (ks ++ us) /\ length us = length U) /\ (masks msgs' = Some (ks ++ vs) <-> xs' = xs).
Proof. exact (rr16_masks aes ro seed m nh perm msgs known K U ps vs). Qed.
Print Assumptions C167_uniform.

(** A filter of 8 bits, two hash functions, the receiver's set 1, 2; the items 0 and 3 have the OTs 3 and 0 of their own. *)
Definition aes167 (k c : N) : N := k + 2 ^ 64 * (3 * k + 1).
Definition perm167 : list N := [3; 1; 4; 0; 6; 2; 7; 5].
Definition pos167 (y : N) : list nat := map (fun p => N.to_nat (default 0 (perm167 !! N.to_nat p))) (filterPos aes167 N.add 0 8 2 y).
Example C167_example : freshPositions pos167 (fun i => i ∈ [1; 6; 4; 5]%nat) [0; 3] [3; 0]%nat /\ (forall i, i ∈ pos167 1 ++ pos167 2 -> i ∈ [1; 6; 4; 5]%nat) /\
  mapM (fun y => sendMask (map (fun i => (0, 2 ^ N.of_nat i)) (seq 0 8)) perm167 (filterPos aes167 N.add 0 8 2 y) 0) [1; 0; 3] = Some [66; 10; 17].
Proof.
  split.
  { split; [done|]. intros i p y Hi Hy. destruct i as [|[|i]]; [| |done]; injection Hi as <-; injection Hy as <-; (split; [vm_compute; reflexivity|]); (split; [apply (bool_decide_unpack _); vm_compute; reflexivity|]).
    - intros j y' Hj. lia.
    - intros j y' Hj Hy'. assert (j = 0%nat) as -> by lia. injection Hy' as <-. unfold oddIn. vm_compute. discriminate. }
  split; [|vm_compute; reflexivity]. apply Forall_forall. apply (bool_decide_unpack _). vm_compute. reflexivity.
Qed.
End rr16.
