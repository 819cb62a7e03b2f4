(** Property theorems about the PIR-PSI client and the KKRT receiver on freely chosen messages (C210, C211) and about server 0 of PIR-PSI (C212). *)
From Verif Require Import Base CuckooIndex_Model Bgi_Model Bgi_Properties Drrn_Model Drrn_Properties Kkrt_Model DrrnFull_Model DrrnFull_Properties Foreign_Properties
  Foreign3_Model Foreign3_Spec Foreign3_Proofs.
Local Open Scope N_scope.

(** * C210 *)

Theorem C210_client_earned k p enc aes prng c inputs msgs out : clientOut k p enc aes prng c inputs msgs = Done out ->
  setEarned (fF k) (fMaskSize k) (maskList (cMask c) (permSize p) 0) inputs (concat msgs) out.
Proof. exact (client_earned k p enc aes prng c inputs msgs out). Qed.
Print Assumptions C210_client_earned.
(** Server 0 repeats masks of the item 300 (position 1) and sends masks of both of its queries; the item is reported once. *)
Definition freeMsg : list N := [52776558138048; 70368744182469; 0; 52776558138048; 70368744182469; 7; 52776558138048; 1; 2; 3; 4; 5].
Example C210_example : clientOut fK fP exEnc exAes exPrng fC [140; 300] [freeMsg] = Done [1%nat].
Proof. vm_compute. reflexivity. Qed.

(** * C211 *)

(** [msgs]: messages on which the receiver finishes; [msgs']: any others of the prescribed sizes. *)
Theorem C211_kkrt_contents F enc seed ms nS nR o R msgs msgs' o' rest : receiverInput F enc seed ms nS nR o R msgs = Done (o', rest) ->
  rightSizes 1024 nS msgs' ->
  exists o2, receiverInput F enc seed ms nS nR o R msgs' = Done (o2, drop ((nS + 1023) / 1024) msgs') /\ krIndex o2 = krIndex o'.
Proof.
  intros E H. destruct (kkrt_total F enc seed ms nS nR o R msgs msgs' o' rest E H) as (o2 & E2 & E3). exists o2. split; [|exact E3]. rewrite E2.
  replace (nS + stepSize - 1)%nat with (nS + 1023)%nat by (unfold stepSize; lia). reflexivity.
Qed.
Print Assumptions C211_kkrt_contents.
Theorem C211_client_contents k p enc aes prng c inputs msgs msgs' out : clientOut k p enc aes prng c inputs msgs = Done out -> rightSizes 1024 (permSize p) msgs' ->
  exists out', clientOut k p enc aes prng c inputs msgs' = Done out'.
Proof. exact (client_total k p enc aes prng c inputs msgs msgs' out). Qed.
Print Assumptions C211_client_contents.

Example C211_example : rightSizes 1024 4 [freeMsg] /\ rightSizes 1024 2 [[1; 2; 3; 10995116277827; 4; 5]; [9]] /\
  (exists o', receiverInput Kkrt_Properties.exF Kkrt_Properties.exEnc 5 10 2 2 kObject [65; 66] [[1; 2; 3; 10995116277827; 4; 5]; [9]] = Done (o', [[9]])) /\
  (* a message that is too short is refused *)
  clientOut fK fP exEnc exAes exPrng fC [140; 300] [tl freeMsg] = Thrown [].
Proof.
  split; [|split; [|split; [eexists|]; vm_compute; reflexivity]]; intros i Hi; (destruct i as [|i]; [|lia]); eexists; (split; [reflexivity|]); vm_compute; reflexivity.
Qed.

(** * C212 *)

(** Server 0 reads only received entries if and only if the received vectors are long enough and the positions lie in the table; then entry [j] is the stated sum. *)
Theorem C212_lengths_partial shares pi0 piS0 rs msg1 : length pi0 = length shares ->
  (longEnough shares pi0 piS0 rs msg1 -> exists out, server0Combine shares pi0 piS0 rs msg1 = Done out /\ length out = length shares /\
     forall j v, out !! j = Some v -> exists s q a w m, shares !! j = Some s /\ pi0 !! j = Some q /\ rs !! q = Some a /\ piS0 !! j = Some w /\ msg1 !! j = Some m /\
       v = N.lxor (N.lxor s (N.lxor a w)) m) /\
  (~ longEnough shares pi0 piS0 rs msg1 -> server0Combine shares pi0 piS0 rs msg1 = UB).
Proof. exact (combine_spec shares pi0 piS0 rs msg1). Qed.
Print Assumptions C212_lengths_partial.
(** A client or a second server whose vector is too short makes server 0 read behind its end, also when all positions are small. *)
Theorem C212_lengths_refuted : exists shares pi0 rs, length pi0 = length shares /\ length rs = length shares /\
  (forall q, q ∈ pi0 -> (q < length shares)%nat) /\
  (exists piS0 msg1, length msg1 = length shares /\ server0Combine shares pi0 piS0 rs msg1 = UB) /\
  (exists piS0 msg1, length piS0 = length shares /\ server0Combine shares pi0 piS0 rs msg1 = UB) /\
  (exists piS0 rs' msg1, length piS0 = length shares /\ length msg1 = length shares /\ server0Combine shares pi0 piS0 rs' msg1 = UB).
Proof.
  exists [5; 6; 7], [2; 0; 1]%nat, [11; 12; 13]. split; [done|]. split; [done|]. split.
  { intros q Hq. repeat (apply elem_of_cons in Hq as [->|Hq]; [cbn; lia|]). by apply elem_of_nil in Hq. }
  split; [exists [1; 2], [50; 60; 70]; split; [done|vm_compute; reflexivity]|].
  split; [exists [1; 2; 3], [50; 60]; split; [done|vm_compute; reflexivity]|].
  exists [1; 2; 3], [11; 12], [50; 60; 70]. split; [done|]. split; [done|]. vm_compute. reflexivity.
Qed.
Print Assumptions C212_lengths_refuted.
(** Positions of another number are refused before anything is read. *)
Theorem C212_positions_refused shares pi0 piS0 rs msg1 : length pi0 ≠ length shares -> server0Combine shares pi0 piS0 rs msg1 = Thrown [].
Proof. exact (combine_refused shares pi0 piS0 rs msg1). Qed.
Print Assumptions C212_positions_refused.
(** The parties of [Drrn_Model] send vectors of the right lengths; there both models of server 0 agree. *)
Theorem C212_agrees shares pi0 piS0 rs msg1 out : length pi0 = length shares -> length piS0 = length shares -> length msg1 = length shares ->
  server0Combine shares pi0 piS0 rs msg1 = Done out -> server0Input shares msg1 rs pi0 piS0 = Some out.
Proof. exact (combine_agrees shares pi0 piS0 rs msg1 out). Qed.
Print Assumptions C212_agrees.
Example C212_example : longEnough [5; 6; 7] [2; 0; 1]%nat [1; 2; 3] [11; 12; 13] [50; 60; 70] /\
  server0Combine [5; 6; 7] [2; 0; 1]%nat [1; 2; 3] [11; 12; 13] [50; 60; 70] = Done [59; 51; 78] /\
  server0Combine [5; 6; 7] [2; 0]%nat [1; 2; 3] [11; 12; 13] [50; 60; 70] = Thrown [].
Proof.
  split; [|split; vm_compute; reflexivity]. split; [|cbn; lia]. intros i Hi. repeat (apply elem_of_cons in Hi as [->|Hi]; [cbn; lia|]). by apply elem_of_nil in Hi.
Qed.
