(** Property theorems for the privacy of one server's PIR key. *)
From Verif Require Import Base Bgi_Model Bgi_Spec BgiPrivacy_Spec BgiPrivacy_Proofs.

(** What each server gets for position [idx] is [keyOf] of its own root and of the expansions along the path of the other server. *)
Theorem C149_view : forall aes prng depth gs idx seed,
  (forall c x, x < 2 ^ 128 -> aes c x < 2 ^ 128) -> (0 < gs)%nat -> N.of_nat gs < 2 ^ 64 ->
  exists s0 s1 cws g, keyGen aes prng depth gs idx seed = Done (s0 :: cws, g, s1 :: cws, g) /\
    legalTape depth gs (tapeOf aes gs idx s0 cws) /\ legalTape depth gs (tapeOf aes gs idx s1 cws) /\
    keyOf aes gs idx s0 (tapeOf aes gs idx s1 cws) = (s0 :: cws, g) /\ keyOf aes gs idx s1 (tapeOf aes gs idx s0 cws) = (s1 :: cws, g).
Proof. exact keys_tape. Qed.
Print Assumptions C149_view.

(** If these expansions are replaced by a uniform tape, the distribution of the key is the same for every position: a permutation of the
    tapes carries the keys of [idx] to those of [idx']. *)
Theorem C149_hidden : forall aes, (forall c x, x < 2 ^ 128 -> aes c x < 2 ^ 128) -> forall depth gs idx idx' s, N.of_nat gs < 2 ^ 64 ->
  exists f, permutesTapes depth gs f /\ forall t, keyOf aes gs idx' s (f t) = keyOf aes gs idx s t.
Proof. exact hidden. Qed.
Print Assumptions C149_hidden.

(** A concrete cipher; positions 300 and 17 of a domain of 512. *)
Definition toyAes (c : bool) (x : N) : N := (x * x * 3 + x + if c then 5 else 7) mod 2 ^ 128.
Definition toyTape : tape := ([(1001, 2002); (30000003, 4)], [99999]).
Example C149_toy_legal : (forall c x, x < 2 ^ 128 -> toyAes c x < 2 ^ 128) /\ legalTape 2 1 toyTape.
Proof. split; [intros c x _; apply N.mod_lt; done|]. repeat split; repeat constructor. Qed.
(** On one tape the keys differ; on the tapes that correspond to each other they agree. *)
Example C149_toy : keyOf toyAes 1 300 12345 toyTape <> keyOf toyAes 1 17 12345 toyTape /\
  keyOf toyAes 1 17 12345 (moveTape toyAes 1 300 17 12345 toyTape) = keyOf toyAes 1 300 12345 toyTape /\
  moveTape toyAes 1 300 17 12345 toyTape <> toyTape.
Proof. split; [|split]; vm_compute; [discriminate|reflexivity|discriminate]. Qed.
Example C149_toy_view : exists s0 s1 cws g, keyGen toyAes (fun _ => (777, 888)) 2 1 300 0 = Done (s0 :: cws, g, s1 :: cws, g) /\
  keyOf toyAes 1 300 s0 (tapeOf toyAes 1 300 s1 cws) = (s0 :: cws, g).
Proof. eexists _, _, _, _. split; [vm_compute; reflexivity|vm_compute; reflexivity]. Qed.
