(** Model of the Bloom-filter protocol, libPSI/PSI/Dcw/DcwRBfPsiReceiver.cpp and DcwRBfPsiSender.cpp.

    Simplifications for the whole file.
    - [aes key] is AES, [prng seed] the stream of blocks of [PRNG(seed)], [ot t j c] message [c] of the [j]-th random OT
      of thread [t]'s extension: arbitrary functions.
    - A [BitVector] is a list of bools.
    - Messages arrive complete and in order. *)
From Verif Require Import Base Partition_Model.

(** ** OT extension *)

(** Replaces the entries from [start] on by [vals].
    DcwRBfPsiReceiver.cpp:89-95, DcwRBfPsiSender.cpp:86-92 (each thread
    writes its part of the array). *)
Definition fillRegion {A} (start : nat) (vals arr : list A) : list A :=
  take start arr ++ vals ++ drop (start + length vals) arr.

(** Receiver:73-98 in thread [t] of [T]. The regions of different threads are disjoint (property C34), so the threads are
    run one after the other. [None]: the region is not a valid span. *)
Definition recvRoutine (ot : nat -> nat -> bool -> N) (choices : list bool) (T t : nat) (msgs : list N) : option (list N) :=
  let '(s, e) := otSplit (N.of_nat (length msgs)) (N.of_nat T) (N.of_nat t) in
  if s <=? e then
    Some (fillRegion (N.to_nat s)
            (imap (fun j c => ot t j c) (take (N.to_nat e - N.to_nat s) (drop (N.to_nat s) choices))) msgs)
  else None.
(** Sender:74-95. *)
Definition sendRoutine (ot : nat -> nat -> bool -> N) (T t : nat) (msgs : list (N * N)) : option (list (N * N)) :=
  let '(s, e) := otSplit (N.of_nat (length msgs)) (N.of_nat T) (N.of_nat t) in
  if s <=? e then
    Some (fillRegion (N.to_nat s) (map (fun j => (ot t j false, ot t j true)) (seq 0 (N.to_nat e - N.to_nat s))) msgs)
  else None.
(** All threads, Receiver:116-138, Sender:113-128. *)
Fixpoint forThreads {A} (f : nat -> A -> option A) (ts : list nat) (a : A) : option A :=
  match ts with
  | [] => Some a
  | t :: ts' => match f t a with Some a' => forThreads f ts' a' | None => None end
  end.

(** The members of the receiver, DcwRBfPsiReceiver.h:18-23. *)
Record dcwReceiver := mkDcwReceiver { drN : nat; drSeed : N; drMsgs : list N; drChoices : list bool; drIntersection : list N }.
(** The members of the sender, DcwRBfPsiSender.h:18-21. *)
Record dcwSender := mkDcwSender { dsN : nat; dsSeed : N; dsMsgs : list (N * N) }.

(** [(u64)(128 * 1.5 * n)], Receiver:44-45, Sender:30-31; exact below 2^45. *)
Definition bfBits (n : nat) : nat := (192 * n)%nat.

(** Receiver:25-151. [choices]: the random bits (:65). *)
Definition recvInit (ot : nat -> nat -> bool -> N) (n T : nat) (mySeed theirSeed : N) (choices : list bool) (o : dcwReceiver)
  : option dcwReceiver :=
  match forThreads (recvRoutine ot choices T) (seq 0 T) (resize (bfBits n) 0 (drMsgs o)) with
  | Some msgs => Some (mkDcwReceiver n (N.lxor mySeed theirSeed) msgs choices (drIntersection o))
  | None => None
  end.
(** Sender:19-139. *)
Definition sendInit (ot : nat -> nat -> bool -> N) (n T : nat) (mySeed theirSeed : N) (o : dcwSender) : option dcwSender :=
  match forThreads (sendRoutine ot T) (seq 0 T) (resize (bfBits n) (0, 0) (dsMsgs o)) with
  | Some msgs => Some (mkDcwSender n (N.lxor mySeed theirSeed) msgs)
  | None => None
  end.

(** ** Online phase *)

(** The filter positions of one item, Receiver:196-201, Sender:181-186: both halves of 64 hash values. *)
Definition positions (aes : N -> N -> N) (prng : N -> nat -> N) (seed : N) (m : nat) (x : N) : list nat :=
  concat (map (fun j => let h := N.lxor (aes (prng seed j) x) x in
                        [N.to_nat ((h mod 2 ^ 64) mod N.of_nat m); N.to_nat (((h / 2 ^ 64) mod 2 ^ 64) mod N.of_nat m)])
           (seq 0 64)).

(** Receiver:194-208: the filter and the encoding of one item. *)
Fixpoint encodeItem (msgs : list N) (ps : list nat) (bf : list bool) (enc : N) : option (list bool * N) :=
  match ps with
  | [] => Some (bf, enc)
  | p :: ps' =>
      match msgs !! p with
      | Some b => if (p <? length bf)%nat then encodeItem msgs ps' (<[p := true]> bf) (N.lxor enc b) else None
      | None => None
      end
  end.

(** Key in [maskMap]: [encoding.get<u64>()[0]]. DcwRBfPsiReceiver.cpp:210,
    225. *)
Definition maskKey (b : N) : N := b mod 2 ^ 64.

(** Receiver:191-214: filter, map (key, position) and masks. Key 0 is the empty key of the [dense_hash_map] (:183) and must
    not be inserted. *)
Fixpoint encodeAll (aes : N -> N -> N) (prng : N -> nat -> N) (seed : N) (msgs : list N) (inputs : list N) (i : nat)
    (bf : list bool) (map : list (N * nat)) (masks : list N) : outcome (list bool * list (N * nat) * list N) :=
  match inputs with
  | [] => Done (bf, map, masks)
  | x :: inputs' =>
      match encodeItem msgs (positions aes prng seed (length bf) x) bf 0 with
      | None => UB
      | Some (bf', enc) =>
          if maskKey enc =? 0 then UB
          else if bool_decide (maskKey enc ∈ map.*1) then Thrown (bf', map, masks)
          else encodeAll aes prng seed msgs inputs' (S i) bf' ((maskKey enc, i) :: map) (masks ++ [enc])
      end
  end.

(** Receiver:172-219: what stays, and the correction sent to the sender. *)
Definition recvFirst (aes : N -> N -> N) (prng : N -> nat -> N) (o : dcwReceiver) (inputs : list N)
  : outcome (list bool * list (N * nat) * list N) :=
  if negb (length inputs =? drN o)%nat then Thrown ([], [], [])
  else match encodeAll aes prng (drSeed o) (drMsgs o) inputs 0 (replicate (bfBits (drN o)) false) [] [] with
       | Done (bf, map, masks) => Done (zip_with xorb bf (drChoices o), map, masks)
       | r => r
       end.

(** Sender:179-190: the mask of one item; [correction[p] ^ 1] selects the message. *)
Fixpoint maskItem (msgs : list (N * N)) (corr : list bool) (ps : list nat) (mask : N) : option N :=
  match ps with
  | [] => Some mask
  | p :: ps' =>
      match (msgs !! p : option (N * N)), (corr !! p : option bool) with
      | Some (m0, m1), Some c => maskItem msgs corr ps' (N.lxor mask (if c then m0 else m1))
      | _, _ => None
      end
  end.
(** Sender:149-195. *)
Definition senderMasks (aes : N -> N -> N) (prng : N -> nat -> N) (o : dcwSender) (inputs : list N) (corr : list bool) : outcome (list N) :=
  if negb (length inputs =? dsN o)%nat then Thrown []
  else match mapM (fun x => maskItem (dsMsgs o) corr (positions aes prng (dsSeed o) (bfBits (dsN o)) x) 0) inputs with
       | Some masks => Done masks
       | None => UB
       end.

(** Receiver:223-228. The empty key is not found. *)
Fixpoint matchMasks (map : list (N * nat)) (masks theirs : list N) (out : list N) : option (list N) :=
  match theirs with
  | [] => Some out
  | m :: theirs' =>
      match (if maskKey m =? 0 then None else list_find (fun e => e.1 = maskKey m) map) with
      | None => matchMasks map masks theirs' out
      | Some (_, (_, i)) =>
          match masks !! i with
          | None => None
          | Some b => matchMasks map masks theirs' (if b =? m then out ++ [N.of_nat i] else out)
          end
      end
  end.

(** Both parties' [sendInput]: the receiver's [mIntersection].
    DcwRBfPsiReceiver.cpp:172-231, DcwRBfPsiSender.cpp:149-195. *)
Definition dcwRun (aes : N -> N -> N) (prng : N -> nat -> N) (r : dcwReceiver) (s : dcwSender) (R S : list N) : outcome (list N) :=
  match recvFirst aes prng r R with
  | Done (corr, map, masks) =>
      match senderMasks aes prng s S corr with
      | Done theirs =>
          if (length theirs =? drN r)%nat   (* [recv] into [mTheirInputSize] blocks *)
          then match matchMasks map masks theirs (drIntersection r) with Some out => Done out | None => UB end
          else Thrown (drIntersection r)
      | Thrown _ => Thrown (drIntersection r)
      | UB => UB
      | OutOfFuel => OutOfFuel
      end
  | Thrown _ => Thrown (drIntersection r)
  | UB => UB
  | OutOfFuel => OutOfFuel
  end.
