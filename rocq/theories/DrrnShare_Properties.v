(** What the servers of PIR-PSI answer and what a run reports, for every table and block size one (continues C29 and C83). *)
From Verif Require Import Base CuckooIndex_Model Bgi_Model Bgi_Spec Bgi_Properties Drrn_Model Drrn_Spec Drrn_Properties DrrnShare_Spec DrrnShare_Proofs.

(** * C29 *)
Theorem C29_shares_exact p aes keys data order : sizesOk p -> sortedTable data -> keysOk p keys -> order ≡ₚ seq 0 (dS p) ->
  serverShares p aes keys data order =
    Some (concat (imap (fun b ks => map (regionShareFrom aes (dSlots p) (N.of_nat (dS p)) data (N.of_nat b)) ks) keys)).
Proof. exact (shares_from p aes keys data order). Qed.
Print Assumptions C29_shares_exact.
(** The first slots of both parts are empty. *)
Example C29_exact_example : sizesOk exP /\ keysOk exP exKeys /\ sortedTable [(77, 1); (78, 3); (79, 6)] /\
  exists sh, serverShares exP exAes exKeys [(77, 1); (78, 3); (79, 6)] [1; 0]%nat = Some sh /\ length sh = 8%nat /\ sh <> replicate 8 0.
Proof. split; [exact exP_sizes|]. split; [exact exKeys_ok|]. split; [repeat constructor|]. eexists. split; [by vm_compute|]. split; [done|]. by vm_compute. Qed.

(** * C83 *)
Theorem C83_reports_exact p enc aes prng c serverSet bins inputs : sizesOk p -> length inputs = dN p -> queriesFit enc p inputs -> choicesOk p c ->
  tableOk enc p serverSet bins -> masksFresh p (cMask c) serverSet inputs -> 0 ∉ inputs ->
  exists out, drrn p enc aes prng c serverSet bins inputs = Some out /\ NoDup out /\
    forall i, i ∈ out <-> exists x, inputs !! i = Some x /\ shiftedHit enc p serverSet bins x.
Proof. exact (run_reports p enc aes prng c serverSet bins inputs). Qed.
Print Assumptions C83_reports_exact.
(** Both common items lie behind two empty slots: 16 is found through its other slot, 218 is missed. *)
Example C83_reports_example : sizesOk exP /\ queriesFit exEnc exP [16; 218] /\ choicesOk exP exC /\
  tableOk exEnc exP [16; 218] [e; e; packWord 0 0; packWord 1 0; e; e; e; e] /\ masksFresh exP exMask [16; 218] [16; 218] /\ 0 ∉ [16; 218] /\
  shiftedHit exEnc exP [16; 218] [e; e; packWord 0 0; packWord 1 0; e; e; e; e] 16 /\
  drrn exP exEnc exAes exPrng exC [16; 218] [e; e; packWord 0 0; packWord 1 0; e; e; e; e] [16; 218] = Some [0%nat].
Proof.
  split; [exact exP_sizes|]. split; [apply exFit|]. split; [exact exC_ok|]. split; [exTab|]. split; [apply exMask_fresh; repeat constructor|]. split; [exNot|].
  split; [|by vm_compute]. assert (storedAt [16; 218] [e; e; packWord 0 0; packWord 1 0; e; e; e; e] 2 16) as HS.
  { exists (packWord 0 0). split; [done|]. split; [by vm_compute|]. by vm_compute. }
  exists 0%nat. split; [cbn; lia|]. exists 0, 2, 2. split; [by vm_compute|]. split.
  { split; [by vm_compute|]. split; [by exists 16|]. intros c' x' _ (w & Hw & Hne & _).
    destruct (decide (2 <= c')) as [L|L]; [done|]. exfalso. apply Hne. assert (c' = 0 \/ c' = 1) as [->| ->] by lia; cbn in Hw; by injection Hw as <-. }
  split; [by vm_compute|]. split; [exact HS|]. by vm_compute.
Qed.

(** * C84 *)
(** All client items, also zero: an empty slot is answered with zero. *)
Theorem C84_answers_exact p enc aes prng c serverSet bins inputs : sizesOk p -> length inputs = dN p -> queriesFit enc p inputs -> choicesOk p c ->
  tableOk enc p serverSet bins -> masksFresh p (cMask c) serverSet inputs ->
  exists out, drrn p enc aes prng c serverSet bins inputs = Some out /\ NoDup out /\
    forall i, i ∈ out <-> exists x, inputs !! i = Some x /\ shiftedAnswer enc p serverSet bins x.
Proof. exact (run_answer p enc aes prng c serverSet bins inputs). Qed.
Print Assumptions C84_answers_exact.
(** The server has 36 only; the client's item zero falls into the empty part. *)
Example C84_answers_example : sizesOk exP /\ queriesFit exEnc exP [0; 36] /\ choicesOk exP exC /\
  tableOk exEnc exP [36] [e; e; e; e; packWord 0 0; e; e; e] /\ masksFresh exP exMask [36] [0; 36] /\
  shiftedAnswer exEnc exP [36] [e; e; e; e; packWord 0 0; e; e; e] 0 /\
  drrn exP exEnc exAes exPrng exC [36] [e; e; e; e; packWord 0 0; e; e; e] [0; 36] = Some [0%nat; 1%nat].
Proof.
  split; [exact exP_sizes|]. split; [apply exFit|]. split; [exact exC_ok|]. split; [exTab|]. split; [apply exMask_fresh; repeat constructor|].
  split; [|by vm_compute]. exists 0%nat. split; [cbn; lia|]. right. split; [done|]. intros v (b & c0 & c & HR & ((HR0 & H0) & (x0 & w & Hw & Hne & _) & _) & _).
  change (itemSlot exEnc (dSlots exP) 0 0) with 0 in HR. unfold inRegion in HR. cbn in HR, HR0, H0. assert (b = 0) as -> by lia. assert (c0 < 4) as L by lia.
  assert (c0 = 0 \/ c0 = 1 \/ c0 = 2 \/ c0 = 3) as D by lia. apply Hne. destruct D as [->|[->|[->| ->]]]; cbn in Hw; by injection Hw as <-.
Qed.
