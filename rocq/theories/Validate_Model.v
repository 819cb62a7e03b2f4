(** Model of the self-check of the cuckoo index, [CuckooIndex<Mode>::validate] of
    libPSI/Tools/CuckooIndex2.cpp:682-730, over the object of CuckooIndex_Model. *)
From Verif Require Import Base CuckooIndex_Model.

(** CuckooIndex2.cpp:703-715, the loop over the hash functions [j .. j+n-1] of input
    [i]: counts the places not met before ([seen] is [hashes[0..j-1]], :708) whose bin
    holds index [i]. [None]: [getHash] or [mBins[h]] out of bounds. *)
Fixpoint matchesFrom (c : Cuckoo) (i j : N) (n : nat) (seen : list N) : option nat :=
  match n with
  | O => Some O
  | S n' =>
      match getHashOf (cHashes c) (pNumBins (cParams c)) i j with
      | None => None
      | Some h =>
          match matchesFrom c i (j + 1) n' (seen ++ [h]) with
          | None => None
          | Some m =>
              if bool_decide (h ∈ seen) then Some m
              else match readN (cBins c) h with
                   | None => None
                   | Some w => if negb (isEmpty w) && (wordIdx w =? i) then Some (S m) else Some m
                   end
          end
      end
  end.

(** CuckooIndex2.cpp:688-720, the loop over the inputs from number [i]; the result is
    [insertCount]. [enc] is AES under the hashing seed (:685), the hash is [enc(x) ^ x]
    (:691). [Thrown] carries nothing: the object is not changed. [mHashes[i]] past the end
    is [UB]. *)
Fixpoint validateItems (enc : N -> N) (c : Cuckoo) (i : N) (xs : list N) (count : nat) : outcome nat :=
  match xs with
  | [] => Done count
  | x :: xs' =>
      match readN (cHashes c) i with
      | None => UB
      | Some h =>
          if negb (N.lxor (enc x) x =? h) then Thrown count
          else if h =? 2 ^ 128 - 1 then validateItems enc c (i + 1) xs' count
          else match matchesFrom c i 0 (N.to_nat (pNumHashes (cParams c))) [] with
               | None => UB
               | Some m => if (m =? 1)%nat then validateItems enc c (i + 1) xs' (S count)
                           else Thrown (S count)
               end
      end
  end.

(** CuckooIndex2.cpp:722-727, [nonEmptyCount]. *)
Fixpoint nonEmptyCount (bins : list N) : nat :=
  match bins with
  | [] => O
  | w :: bins' => if isEmpty w then nonEmptyCount bins' else S (nonEmptyCount bins')
  end.

(** CuckooIndex2.cpp:682-730, [validate(inputs, hashingSeed)]. [Done] = returns,
    [Thrown] = one of the three exceptions (:697, :717, :729). The stash is not looked at. *)
Definition validate (enc : N -> N) (c : Cuckoo) (xs : list N) : outcome unit :=
  match validateItems enc c 0 xs 0 with
  | Done count => if (nonEmptyCount (cBins c) =? count)%nat then Done tt else Thrown tt
  | Thrown _ => Thrown tt
  | UB => UB
  | OutOfFuel => OutOfFuel
  end.
