(** Vocabulary of the statements about what the servers of the PIR-PSI protocol learn about the client's set.

    The masks and the shuffle [pi1] come from the seed [rSeed = CCBlock], a constant of the program (DrrnPsiClient.cpp:99, 204-206 and
    DrrnPsiServer.cpp:53-62): everybody knows them. *)
From Verif Require Import Base CuckooIndex_Model Bgi_Model Bgi_Spec Drrn_Model Drrn_Spec DrrnView_Model BgiPrivacy_Spec.

(** ** What server 0 can compute *)

(** The place of the query with number [k] (hash function [k mod H] of item [k / H]): where [pi0] holds the place of [k] in [pi1]. *)
Definition placeOf (pi1 pi0 : list nat) (k : nat) : option nat := fst <$> list_find (fun y => pi1 !! y = Some k) pi0.
(** The region of the table that hash function [j] of the client's item [i] points to. *)
Definition learnedRegion (p : dparams) (pi1 : list nat) (v : view0) (i j : nat) : option nat :=
  match placeOf pi1 (vPi0 v) (i * dH p + j)%nat with Some k => Some (k / dBin p)%nat | None => None end.
(** The item that hash function [j] of the client's item [i] reads: the own share, the share of server 1 and the mask on the latter. *)
Definition learnedValue (p : dparams) (aes : bool -> N -> N) (mask : N -> N) (pi1 : list nat) (serverSet bins : list N) (v : view0) (i j : nat) : option N :=
  match tableOf bins serverSet with
  | Some data =>
      match serverShares p aes (vKeys v) data (seq 0 (dS p)), placeOf pi1 (vPi0 v) (i * dH p + j)%nat with
      | Some sh, Some k =>
          match (sh !! k : option N), (vMsg1 v !! k : option N) with
          | Some a, Some b => Some (N.lxor (N.lxor a b) (mask (N.of_nat (permSize p + k))))
          | _, _ => None
          end
      | _, _ => None
      end
  | None => None
  end.
(** The server's item in slot [s], zero if there is none. *)
Definition slotContent (serverSet bins : list N) (s : N) : N :=
  match bins !! N.to_nat s with Some w => if decide (w = emptyWord) then 0 else default 0 (serverSet !! N.to_nat (wordIdx w)) | None => 0 end.

(** ** What server 1 can compute *)

(** The number of keys of region [b] that are not zero. *)
Definition nonzero (kg : list N * list N) : Prop := kg.1 <> map (fun _ => 0) kg.1 \/ kg.2 <> map (fun _ => 0) kg.2.
Global Instance nonzero_dec kg : Decision (nonzero kg).
Proof. unfold nonzero. apply _. Defined.
Definition learnedLoad (keys : list (list (list N * list N))) (b : nat) : nat := length (filter nonzero (default [] (keys !! b))).
(** The number of the client's queries to region [b]. *)
Definition load (enc : N -> N) (p : dparams) (inputs : list N) (b : nat) : nat :=
  length (filter (fun c => inRegion (dSlots p) (N.of_nat (dS p)) (N.of_nat b) c) (querySlots enc p inputs)).

(** ** The keys as functions of random tapes *)

(** The slot of query [q], and the queries to region [b]. *)
Definition querySlot (enc : N -> N) (p : dparams) (inputs : list N) (q : nat) : N := itemSlot enc (dSlots p) (default 0 (inputs !! (q / dH p)%nat)) (q mod dH p).
Definition queriesTo (enc : N -> N) (p : dparams) (inputs : list N) (b : nat) : list nat :=
  filter (fun q => inRegion (dSlots p) (N.of_nat (dS p)) (N.of_nat b) (querySlot enc p inputs q)) (seq 0 (dN p * dH p)).
(** The keys of one server: for query [q] the key of root [root q] and tape [tapes q], zero for the rest of the row. *)
Definition keysView (aes : bool -> N -> N) (enc : N -> N) (p : dparams) (depth gs : nat) (inputs : list N) (root : nat -> N) (tapes : nat -> tape) : list (list (list N * list N)) :=
  map (fun b => map (fun q => keyOf aes gs (querySlot enc p inputs q - firstSlot (dSlots p) (N.of_nat (dS p)) (N.of_nat b)) (root q) (tapes q)) (queriesTo enc p inputs b) ++
                replicate (dBin p - length (queriesTo enc p inputs b)) (replicate (S depth) 0, replicate gs 0)) (seq 0 (dS p)).
