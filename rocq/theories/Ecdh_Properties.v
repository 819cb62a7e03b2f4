(** Property theorems about the Diffie-Hellman PSI (C32, C33, C74). *)
From Verif Require Import Base Ecdh_Model Ecdh_Spec Ecdh_Proofs.

(** Example group: multiplication modulo a prime. [T]: number of channels; [sched]: order of the threads' insertions. *)
Definition exSmul (p k : N) : N := p * k mod (2 ^ 61 - 1).
Definition exPt (h : N) : N := h mod (2 ^ 61 - 1).
Definition exId (p : N) : N := p.
Definition exRoItem (len : nat) (x : N) : N := (x * x * 0x9e3779b97f4a7c15f39cc0605cedc835 + x) mod 2 ^ 128.
Definition exRoPoint (p : N) : N := (p * 0xd1342543de82ef95d1342543de82ef95 + 12345) mod 2 ^ 128.
Definition exR : list N := [10; 20; 30; 40; 50].
Definition exS : list N := [5; 30; 10; 99; 50].

(** * C32 *)

(** Two common items whose blocks share the first 32 bits: the second is not reported. *)
Theorem C32_ecdh_complete_refuted : exists roPoint R S sched out i y,
  ecdhRun exSmul exPt exId exId exRoItem roPoint 20 1 7 11 R S sched [] = Done out /\
  (forall z w, roPoint z = roPoint w -> z = w) /\
  R !! i = Some y /\ y ∈ S /\ N.of_nat i ∉ out.
Proof.
  exists (fun p => p * 2 ^ 32), [2; 3], [2; 3], [0; 0]%nat, [0], 1%nat, 3.
  split; [vm_compute; reflexivity|]. split; [intros z w; lia|]. split; [done|].
  split; apply (bool_decide_unpack _); vm_compute; done.
Qed.
Print Assumptions C32_ecdh_complete_refuted.

(** What holds: every complete schedule ends with an answer (and there is one); and a common item is reported
    if no other block of a sender item has the same first 32 bits. *)
Theorem C32_ecdh_complete_partial {P : Type} (smul : P -> N -> P) pt enc dec roItem roPoint hashSize T a b R S old :
  (0 < T)%nat -> (0 < length R)%nat -> length S = length R -> N.of_nat (length R) * N.of_nat T < 2 ^ 64 -> N.of_nat (length R) < 2 ^ 44 ->
  (forall p, dec (enc p) = p) -> (forall p, smul (smul p b) a = smul (smul p a) b) ->
  (forall z, z ∈ R -> roItem hashSize z mod 2 ^ 128 = roItem 16%nat z) ->
  (exists sched l, ecdhRun smul pt enc dec roItem roPoint hashSize T a b R S sched old = Done l) /\
  forall sched,
    ecdhRun smul pt enc dec roItem roPoint hashSize T a b R S sched old = OutOfFuel \/
    exists l, ecdhRun smul pt enc dec roItem roPoint hashSize T a b R S sched old = Done l /\
      forall i y, R !! i = Some y -> y ∈ S ->
        (forall x, x ∈ S -> dhBlock smul pt enc roPoint (roItem 16%nat x) a b mod 2 ^ 32 = dhBlock smul pt enc roPoint (roItem 16%nat y) a b mod 2 ^ 32 ->
           dhBlock smul pt enc roPoint (roItem 16%nat x) a b = dhBlock smul pt enc roPoint (roItem 16%nat y) a b) ->
        N.of_nat i ∈ l.
Proof. exact (ecdh_C32 smul pt enc dec roItem roPoint hashSize T a b R S old). Qed.
Print Assumptions C32_ecdh_complete_partial.
Example C32_example :
  ecdhRun exSmul exPt exId exId exRoItem exRoPoint 20 3 7 11 exR exS [2; 0; 1; 2]%nat [] = OutOfFuel /\
  ecdhRun exSmul exPt exId exId exRoItem exRoPoint 20 3 7 11 exR exS [2; 0; 1; 2; 1]%nat [] = Done [0; 2; 4].
Proof. split; vm_compute; reflexivity. Qed.

(** * C33 *)

Theorem C33_ecdh_sound {P : Type} (smul : P -> N -> P) pt enc dec roItem roPoint hashSize T a b R S sched old l :
  (0 < T)%nat -> (0 < length R)%nat -> length S = length R -> N.of_nat (length R) * N.of_nat T < 2 ^ 64 -> N.of_nat (length R) < 2 ^ 44 ->
  (forall p, dec (enc p) = p) ->
  (forall y x, y ∈ R -> x ∈ S ->
     dhBlock smul pt enc roPoint (roItem hashSize y mod 2 ^ 128) b a mod 2 ^ (8 * maskBytes (length R)) =
     dhBlock smul pt enc roPoint (roItem 16%nat x) a b mod 2 ^ (8 * maskBytes (length R)) -> y = x) ->
  ecdhRun smul pt enc dec roItem roPoint hashSize T a b R S sched old = Done l ->
  exists new, l = old ++ new /\ StronglySorted N.lt new /\ forall k, k ∈ new -> exists y, R !! N.to_nat k = Some y /\ y ∈ S.
Proof. exact (ecdh_C33 smul pt enc dec roItem roPoint hashSize T a b R S sched old l). Qed.
Print Assumptions C33_ecdh_sound.
Example C33_example : maskBytes (length exR) = 6 /\
  bool_decide (NoDup (map (fun x => dhBlock exSmul exPt exId exRoPoint (exRoItem 16 x) 7 11 mod 2 ^ 48) (exR ++ [5; 99]))) = true /\
  ecdhRun exSmul exPt exId exId exRoItem exRoPoint 20 2 7 11 exR exS [1; 0; 1; 1; 0]%nat [] = Done (commonIn exR exS).
Proof. split; [|split]; vm_compute; reflexivity. Qed.

(** Both together: exactly the common items, for every number of channels and every schedule. *)
Theorem C33_ecdh_exact {P : Type} (smul : P -> N -> P) pt enc dec roItem roPoint hashSize T a b R S sched old l :
  (0 < T)%nat -> (0 < length R)%nat -> length S = length R -> N.of_nat (length R) * N.of_nat T < 2 ^ 64 -> N.of_nat (length R) < 2 ^ 44 ->
  (forall p, dec (enc p) = p) -> (forall p, smul (smul p b) a = smul (smul p a) b) ->
  (forall z, z ∈ R -> roItem hashSize z mod 2 ^ 128 = roItem 16%nat z) ->
  (forall x y, x ∈ R ++ S -> y ∈ R ++ S ->
     dhBlock smul pt enc roPoint (roItem 16%nat x) a b mod 2 ^ 32 = dhBlock smul pt enc roPoint (roItem 16%nat y) a b mod 2 ^ 32 -> x = y) ->
  ecdhRun smul pt enc dec roItem roPoint hashSize T a b R S sched old = Done l -> l = old ++ commonIn R S.
Proof. exact (ecdh_C33_exact smul pt enc dec roItem roPoint hashSize T a b R S sched old l). Qed.
Print Assumptions C33_ecdh_exact.
Example C33_exact_example : commonIn exR exS = [0; 2; 4] /\
  bool_decide (NoDup (map (fun x => dhBlock exSmul exPt exId exRoPoint (exRoItem 16 x) 7 11 mod 2 ^ 32) (exR ++ [5; 99]))) = true.
Proof. split; vm_compute; reflexivity. Qed.

(** * C74 *)

(** A random oracle whose outputs of 20 and of 16 bytes are unrelated (as for Blake2, which hashes the output length): the same
    item, one channel, nothing reported. *)
Theorem C74_same_point_refuted : exists roItem R S sched,
  ecdhRun exSmul exPt exId exId roItem exRoPoint 20 1 7 11 R S sched [] = Done [] /\
  R = [5] /\ S = [5] /\ forall len x y, roItem len x = roItem len y -> x = y.
Proof.
  exists (fun len x => x + N.of_nat len), [5], [5], [0%nat].
  split; [vm_compute; reflexivity|]. split; [done|]. split; [done|]. intros len x y. lia.
Qed.
Print Assumptions C74_same_point_refuted.

(** What holds: for an oracle whose shorter outputs are prefixes of the longer ones, the points agree. *)
Theorem C74_same_point_partial {P : Type} (smul : P -> N -> P) pt (enc : P -> N) roItem hashSize k x :
  (16 <= hashSize)%nat ->
  (forall m n y, (m <= n)%nat -> roItem n y mod 2 ^ (8 * N.of_nat m) = roItem m y) ->
  recvPoint smul pt enc roItem hashSize k x = sendPoint smul pt enc roItem k x.
Proof. intros Hh H. unfold recvPoint, sendPoint. by rewrite <- (H 16%nat hashSize x Hh). Qed.
Print Assumptions C74_same_point_partial.
Example C74_example : recvPoint exSmul exPt exId exRoItem 20 7 5 = sendPoint exSmul exPt exId exRoItem 7 5 /\
  forall m n y, (m <= n)%nat -> (y * 77 mod 2 ^ (8 * N.of_nat n)) mod 2 ^ (8 * N.of_nat m) = y * 77 mod 2 ^ (8 * N.of_nat m).
Proof. split; [vm_compute; reflexivity|]. intros m n y H. apply mod_mod_pow. lia. Qed.
