(** What the property theorems say about threads and their seeds. *)
From stdpp Require Import relations.
From Verif Require Import Base Capture_Model.

(** In every execution, every thread that has read its seed has read the one drawn for it. *)
Definition ownSeeds (p : list op) (seeds : list N) : Prop :=
  forall s t r, rtc cstep (cinit p) s -> threads s !! t = Some (Has r) -> exists v, r = Some v /\ seeds !! t = Some v.
(** Some execution ends with all threads joined, and what they read. *)
Definition mayRead (p : list op) (rs : list (option N)) : Prop := exists m, rtc cstep (cinit p) (mkC [] m (map Has rs)).
(** No execution is stuck before its end. *)
Definition noStuck (p : list op) : Prop := forall s, rtc cstep (cinit p) s -> prog s = [] \/ exists s', cstep s s'.
