(** Vocabulary of the statements about RR17b. *)
From Verif Require Import Base Rr17_Model Rr17b_Model.

(** Items of [l] in bin [b]. *)
Definition load (P : params) (l : list N) (b : nat) : nat := length (filter (fun x => itemBin P x = b) l).
(** [init] left sensible values; the items fit the bins; tags have 4 bytes, keys 16, commitments 20. *)
Definition paramsOk (P : params) (l : list N) : Prop :=
  (0 < pN P)%nat /\ (0 < pNb P)%nat /\ (0 < pCap P)%nat /\ (0 < pT P)%nat /\ pMask P <= 16 /\
  N.of_nat (pNb P + pT P) * N.of_nat (pT P) < 2 ^ 64 /\ N.of_nat (pN P + pT P) * N.of_nat (pT P) < 2 ^ 64 /\
  length l = pN P /\ (forall b, (load P l b <= pCap P)%nat) /\
  (forall t i x, (pEnc P t i x).1 < 2 ^ 32 /\ (pEnc P t i x).2 < 2 ^ 128) /\ (forall x r, pCom P x r < 2 ^ 160).
(** [a] happens before [b]. *)
Definition before (a b : step) (l : list step) : Prop := exists i j, l !! i = Some a /\ l !! j = Some b /\ (i < j)%nat.
(** An order of the steps that program order, message order and the sender's barrier allow: each thread sends its corrections after its insertions; they
    arrive after they were sent; a thread of the sender comes to the barrier after all its corrections; nobody passes it before all have come;
    rows are looked up after they were sent. Nothing orders the threads of the receiver. *)
Definition schedOk (T : nat) (l : list step) : Prop :=
  NoDup l /\ forall t, (t < T)%nat ->
    before (Insert t) (Correct t) l /\ before (Correct t) (Corrected t) l /\ before (Corrected t) (Barrier t) l /\
    (forall u, (u < T)%nat -> before (Barrier t) (Send u) l) /\ before (Send t) (Lookup t) l.
(** The random choices are permutations and blocks; the schedules are orders of the work to be done. *)
Definition randOk (P : params) (rd : rand) : Prop :=
  rPerm rd ≡ₚ seq 0 (pN P) /\ (forall j, rDec rd j < 2 ^ 128) /\ rOrdR rd ≡ₚ seq 0 (pN P) /\ rOrdS rd ≡ₚ seq 0 (pN P) /\
  rPlaces rd ≡ₚ sendPlaces (pCap P) (pNb P) (pT P) /\ (forall t l, rTab rd t l ≡ₚ l) /\ rOut rd ≡ₚ seq 0 (pT P) /\
  schedOk (pT P) (rSched rd) /\ (forall t, Insert t ∈ rSched rd -> (t < pT P)%nat).

(** No decommitment that can be tried with equal tags opens the commitment of one item to another item. *)
Definition binding (P : params) (rd : rand) (R S : list N) : Prop :=
  forall x j y t s t' s', x ∈ R -> S !! j = Some y ->
    (pEnc P t s (otInput P x)).1 = (pEnc P t' s' (otInput P y)).1 ->
    pCom P x (N.lxor (pEnc P t s (otInput P x)).2 (N.lxor (pEnc P t' s' (otInput P y)).2 (rDec rd j))) = pCom P y (rDec rd j) -> x = y.
