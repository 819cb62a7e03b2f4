(** Vocabulary of the statements about the PIR-PSI protocol. *)
From Verif Require Import Base CuckooIndex_Model Bgi_Model Bgi_Spec Drrn_Model.

(** Slot [c] of a table of [slots] slots lies in part [b] of [regions] equal parts. *)
Definition inRegion (slots regions b c : N) : Prop := b * slots <= c * regions < (b + 1) * slots.
Global Instance inRegion_dec slots regions b c : Decision (inRegion slots regions b c).
Proof. unfold inRegion. apply _. Defined.

(** The stored items are sorted by slot, one per slot. *)
Definition sortedTable (data : list (N * N)) : Prop := StronglySorted (fun a b : N * N => a.2 < b.2) data.

(** The bit of a PIR key at position [q] of its domain. *)
Definition keyBit (aes : bool -> N -> N) (kg : list N * list N) (q : N) : bool := match evalOne aes q kg.1 kg.2 with Done b => b | _ => false end.
(** The first slot of part [b]: the quotient rounded up. *)
Definition firstSlot (slots regions b : N) : N := (b * slots + (regions - 1)) / regions.

(** XOR of the values of the items whose distance from slot [lo] is selected by [f]. *)
Definition selectItems (f : N -> bool) (lo : N) (items : list (N * N)) : N :=
  xorAll (map (fun e : N * N => if f (e.2 - lo) then e.1 else 0) items).

(** The share of a query of part [b]: the items of the part, at their distance from its first slot. *)
Definition regionShare (aes : bool -> N -> N) (slots regions : N) (data : list (N * N)) (b : N) (kg : list N * list N) : N :=
  selectItems (keyBit aes kg) (firstSlot slots regions b) (filter (fun e : N * N => inRegion slots regions b e.2) data).

(** The masks of item [i]: [H] of them from position [i * H]. *)
Definition itemMasks (H i : nat) (r : list N) : list N := take H (drop (i * H) r).

(** ** Setting of a run with block size one *)

(** The slot of item [x] under hash function [j]: 64 bits of the hash from bit [16 * j], modulo the number of slots. *)
Definition itemSlot (enc : N -> N) (slots : N) (x : N) (j : nat) : N :=
  N.shiftr (N.lxor (enc x) x) (16 * N.of_nat j) mod 2 ^ 64 mod slots.
(** The slots of all queries of the client. *)
Definition querySlots (enc : N -> N) (p : dparams) (inputs : list N) : list N :=
  concat (map (fun x => map (itemSlot enc (dSlots p) x) (seq 0 (dH p))) inputs).

(** Sizes for which no 64-bit product and no 32-bit index overflows. *)
Definition sizesOk (p : dparams) : Prop :=
  dB p = 1%nat /\ (0 < dH p <= 5)%nat /\ (0 < dS p)%nat /\ (0 < dBin p)%nat /\ 0 < dSlots p < 2 ^ 31 /\ N.of_nat (dS p * dBin p) < 2 ^ 32.
(** No region receives more queries than it has room for. *)
Definition queriesFit (enc : N -> N) (p : dparams) (inputs : list N) : Prop :=
  forall b, (length (filter (fun c => inRegion (dSlots p) (N.of_nat (dS p)) b c) (querySlots enc p inputs)) <= dBin p)%nat.
(** The keys the server receives: [mBinSize] per region, of the derived shape. *)
Definition keysOk (p : dparams) (keys : list (list (list N * list N))) : Prop :=
  exists D G, domainParams (dSlots p) (N.of_nat (dS p)) 1 = Done (D, G) /\ length keys = dS p /\ Forall (fun ks => length ks = dBin p) keys /\
    Forall (Forall (fun kg : list N * list N => length kg.1 = S (N.to_nat D) /\ length kg.2 = N.to_nat G)) keys.
(** The shuffles are permutations; the servers handle every region once. *)
Definition choicesOk (p : dparams) (c : dchoices) : Prop :=
  cPi1 c ≡ₚ seq 0 (permSize p) /\ length (cSigmas c) = dN p /\ Forall (fun sg => sg ≡ₚ seq 0 (dH p)) (cSigmas c) /\
  cOrder0 c ≡ₚ seq 0 (dS p) /\ cOrder1 c ≡ₚ seq 0 (dS p).
(** The server's table: every item is stored once, in one of its slots. *)
Definition tableOk (enc : N -> N) (p : dparams) (serverSet bins : list N) : Prop :=
  N.of_nat (length bins) = dSlots p /\
  map (fun w => N.to_nat (wordIdx w)) (filter (fun w => w ≠ emptyWord) bins) ≡ₚ seq 0 (length serverSet) /\
  forall c w x, bins !! c = Some w -> w ≠ emptyWord -> serverSet !! N.to_nat (wordIdx w) = Some x ->
    exists j, (j < dH p)%nat /\ N.of_nat c = itemSlot enc (dSlots p) x j.
(** The first slot of every region that has an occupied slot is occupied. *)
Definition regionsLead (p : dparams) (bins : list N) : Prop :=
  forall b c w, bins !! c = Some w -> w ≠ emptyWord -> inRegion (dSlots p) (N.of_nat (dS p)) b (N.of_nat c) ->
    exists c0 w0, bins !! c0 = Some w0 /\ w0 ≠ emptyWord /\ inRegion (dSlots p) (N.of_nat (dS p)) b (N.of_nat c0) /\
      forall c', inRegion (dSlots p) (N.of_nat (dS p)) b c' -> N.of_nat c0 <= c'.
(** Two masked values agree only if they carry the same mask: values are the server's items and zero on one side, the
    client's items on the other. *)
Definition masksFresh (p : dparams) (mask : N -> N) (serverSet inputs : list N) : Prop :=
  forall k k' v x, k < N.of_nat (permSize p) -> k' < N.of_nat (permSize p) -> v ∈ 0 :: serverSet -> x ∈ inputs ->
    N.lxor v (mask k) = N.lxor (mask k') x -> k = k'.
