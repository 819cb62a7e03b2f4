(** What the servers of PIR-PSI answer for every table, with block size one: vocabulary. *)
From Verif Require Import Base CuckooIndex_Model Bgi_Model Bgi_Spec Drrn_Model Drrn_Spec.

(** The slot the server counts distances from: the slot of the first item of the part. *)
Definition originSlot (items : list (N * N)) : N := match items with e :: _ => e.2 | [] => 0 end.
(** The share of a query of part [b]: the items of the part, at their distance from the first item of the part. *)
Definition regionShareFrom (aes : bool -> N -> N) (slots regions : N) (data : list (N * N)) (b : N) (kg : list N * list N) : N :=
  let items := filter (fun e : N * N => inRegion slots regions b e.2) data in selectItems (keyBit aes kg) (originSlot items) items.

(** Slot [c] of the table stores the item [x]. *)
Definition storedAt (serverSet bins : list N) (c : N) (x : N) : Prop :=
  exists w, bins !! N.to_nat c = Some w /\ w ≠ emptyWord /\ serverSet !! N.to_nat (wordIdx w) = Some x.
(** Slot [c] is the first occupied slot of part [b]. *)
Definition firstStored (p : dparams) (serverSet bins : list N) (b c : N) : Prop :=
  inRegion (dSlots p) (N.of_nat (dS p)) b c /\ (exists x, storedAt serverSet bins c x) /\
  forall c' x', inRegion (dSlots p) (N.of_nat (dS p)) b c' -> storedAt serverSet bins c' x' -> c <= c'.
(** Slot [itemSlot x j], moved by the number of empty slots that lead its part, stores [v] in the same part. *)
Definition shiftedStored (enc : N -> N) (p : dparams) (serverSet bins : list N) (x : N) (j : nat) (v : N) : Prop :=
  exists b c0 c, inRegion (dSlots p) (N.of_nat (dS p)) b (itemSlot enc (dSlots p) x j) /\
    firstStored p serverSet bins b c0 /\ inRegion (dSlots p) (N.of_nat (dS p)) b c /\ storedAt serverSet bins c v /\
    c = itemSlot enc (dSlots p) x j + (c0 - firstSlot (dSlots p) (N.of_nat (dS p)) b).
(** This slot holds [x] for one of the hash functions. *)
Definition shiftedHit (enc : N -> N) (p : dparams) (serverSet bins : list N) (x : N) : Prop :=
  exists j : nat, (j < dH p)%nat /\ shiftedStored enc p serverSet bins x j x.
(** The same when an empty slot counts as the item zero. *)
Definition shiftedAnswer (enc : N -> N) (p : dparams) (serverSet bins : list N) (x : N) : Prop :=
  exists j : nat, (j < dH p)%nat /\ (shiftedStored enc p serverSet bins x j x \/ x = 0 /\ forall v, ~ shiftedStored enc p serverSet bins x j v).
