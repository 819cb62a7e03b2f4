(** Specification vocabulary for the cuckoo hash table [CuckooHasher], independent of the model's
    helper functions: table words are decoded arithmetically. *)
From Verif Require Import Base CuckooHasher_Model.

(** Content of a table word: [None] for the all-ones word, otherwise (index, hash function). *)
Definition slotOf (w : N) : option (N * N) :=
  if decide (w = 2 ^ 64 - 1) then None else Some (w mod 2 ^ 56, w / 2 ^ 56).

(** All indices stored anywhere in the object (bins first, then stash). *)
Definition storedIn (c : Hasher) : list N := (omap slotOf (hBins c ++ hStash c)).*1.

(** The item with index [i] and hash row [row] lies in a bin that one of its hash values selects, or in
    the stash. *)
Definition placed (c : Hasher) (i : N) (row : list N) : Prop :=
  (exists j h w, row !! j = Some h /\
     hBins c !! N.to_nat (h mod N.of_nat (length (hBins c))) = Some w /\
     slotOf w = Some (i, N.of_nat j)) \/
  (exists k w j, hStash c !! k = Some w /\ slotOf w = Some (i, j)).

(** A call of the insertion interface. [OBatch ws items]: [insertBatch] with a workspace of size [ws]. *)
Inductive op :=
| OInsert (i : N) (row : list N)
| OBatch (ws : nat) (items : list (N * list N)).

Definition opItems (o : op) : list (N * list N) :=
  match o with OInsert i row => [(i, row)] | OBatch _ items => items end.

Definition opsItems (os : list op) : list (N * list N) := concat (map opItems os).

(** The call, on the model. *)
Definition runOp (c : Hasher) (o : op) : outcome Hasher :=
  match o with
  | OInsert i row => insert c i row
  | OBatch ws items =>
      match insertBatch c ws items.*1 (concat items.*2) with
      | Done (c', _) => Done c'
      | Thrown (c', _) => Thrown c'
      | UB => UB
      | OutOfFuel => OutOfFuel
      end
  end.

Fixpoint runOps (c : Hasher) (os : list op) : outcome Hasher :=
  match os with
  | [] => Done c
  | o :: os' => andThen (runOp c o) (fun c' => runOps c' os')
  end.

(** The same with [SimpleCuckoo]; a history is a list of batches. *)
Fixpoint simpleRun (c : Hasher) (bs : list (nat * list (N * list N))) : outcome Hasher :=
  match bs with
  | [] => Done c
  | (ws, items) :: bs' =>
      andThen (simpleInsertBatch c ws items.*1 (concat items.*2)) (fun c' => simpleRun c' bs')
  end.

(** Items that may be given to a table made for [n] items with [num] hash functions: distinct indices
    below [n] and below the reserved value 2^56-1, rows of [num] words. *)
Definition legalItems (n num : N) (items : list (N * list N)) : Prop :=
  NoDup items.*1 /\
  Forall (fun x => x.1 < n /\ x.1 < 2 ^ 56 - 1 /\ N.of_nat (length x.2) = num) items.

Definition wsOk (o : op) : Prop :=
  match o with OInsert _ _ => True | OBatch ws items => (length items <= ws)%nat end.

Definition legalOps (n num : N) (os : list op) : Prop :=
  legalItems n num (opsItems os) /\ Forall wsOk os.

(** A usable table: at least one bin and one hash function, hash function numbers fit in 8 bits, and the
    matrix of hash values is addressable. *)
Definition legalSize (n num bins : N) : Prop :=
  0 < bins /\ 1 <= num <= 256 /\ n * num < 2 ^ 64.

(** The answer to a lookup of [row] among the given items. *)
Definition answers (items : list (N * list N)) (row : list N) (r : N) : Prop :=
  (r, row) ∈ items \/ (r = 2 ^ 64 - 1 /\ row ∉ items.*2).
