(** The PIR-PSI client on the messages of an honest server 0 (continues C210). *)
From Verif Require Import Base CuckooIndex_Model Bgi_Model Bgi_Properties Drrn_Model Drrn_Properties Kkrt_Model DrrnFull_Model DrrnFull_Properties Foreign3_Model.
Local Open Scope N_scope.

(** What the client of a complete run reports (C185) it reports alone on the messages server 0 sends. *)
Theorem C210_agrees k p enc aes prng c serverSet bins inputs reals final out : drrnParts p enc aes prng c serverSet bins inputs = Some (reals, final) ->
  finalOut k p reals final = Done (Some out) ->
  exists o msgs, senderInput (fF k) (fEnc k) (fSeed k) (fJunk k) (fMaskSize k) (pNumBins (fParam k)) (fPm k) (fIv k) (permSize p) final (fSched k) = Done (Some (o, Sent msgs)) /\
    clientOut k p enc aes prng c inputs msgs = Done out.
Proof.
  intros E F. unfold drrnParts in E. unfold clientOut. destruct (clientLayout p enc aes prng c inputs) as [l|]; [|done].
  assert (omap qReal (concat l) = reals) as -> by (repeat case_match; simplify_eq; done).
  unfold finalOut in F. destruct (recvInit _ _) as [o|o| |]; [|done|done|done].
  destruct (senderInput _ _ _ _ _ _ _ _ _ _ _) as [[[s1 ph]|]|s1| |] eqn:Es; try done. destruct ph as [?|msgs]; try done.
  exists s1, msgs. split; [done|]. destruct (receiverInput _ _ _ _ _ _ _ _ _) as [[o' r]|o'| |]; [|done|done|done]. by injection F as <-.
Qed.
Print Assumptions C210_agrees.
Example C210_agrees_example : drrnParts fP exEnc exAes exPrng fC fSet (cBins fTable) [140; 300] = Some (fReals, fFinal) /\ finalOut fK fP fReals fFinal = Done (Some [0%nat]).
Proof. split; [vm_compute; reflexivity|exact (proj2 C185_example_final)]. Qed.
