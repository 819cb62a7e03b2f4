(** Model of libPSI/Tools/fileBased.cpp.

    Simplifications for the whole file.
    - A file is the list of its bytes, characters are their codes. Opening succeeds; text mode translates nothing (POSIX).
    - [isxdigit] of a byte above 127 (a negative [char]) is false, as in glibc with the C locale; the standard leaves it undefined.
    - [ro] is the random oracle, an arbitrary function; [prng] the stream of [PRNG(sysRandomSeed())].
    - Printing and memory exhaustion are left out. *)
From Verif Require Import Base.

(** fileBased.cpp:16-20. *)
Definition hasSuffix (value ending : list N) : bool :=
  if (length value <? length ending)%nat then false
  else bool_decide (take (length ending) (rev value) = rev ending).

(** [isxdigit], [strtol(.., 16)] on one digit: the value of a hexadecimal
    digit. fileBased.cpp:28, 44. *)
Definition hexVal (c : N) : option N :=
  if (48 <=? c) && (c <=? 57) then Some (c - 48)
  else if (65 <=? c) && (c <=? 70) then Some (c - 55)
  else if (97 <=? c) && (c <=? 102) then Some (c - 87)
  else None.
(** fileBased.cpp:28. *)
Definition isxdigit (c : N) : bool := match hexVal c with Some _ => true | None => false end.

(** fileBased.cpp:22-30. The loop reads 32 characters, all inside the string after the size test. *)
Fixpoint allDigits (i : nat) (n : nat) (buff : list N) (ret : bool) : option bool :=
  match n with
  | O => Some ret
  | S n' =>
      match buff !! i with
      | None => None
      | Some c => allDigits (S i) n' buff (ret && isxdigit c)
      end
  end.
(** fileBased.cpp:22-30, the whole function. *)
Definition isHexBlock (buff : list N) : option bool :=
  if (length buff =? 32)%nat then allDigits 0 32 buff true else Some false.

(** [(u8)(char)strtol(b, nullptr, 16)] for two characters and a terminating zero: conversion stops at the first
    character that is not a digit. (Blanks and signs, which [strtol] also
    accepts, do not get here.). fileBased.cpp:44. *)
Definition strtol2 (b0 b1 : N) : N :=
  match hexVal b0 with
  | None => 0
  | Some h => match hexVal b1 with None => h | Some l => (16 * h + l) mod 256 end
  end.

(** fileBased.cpp:40-45: [vv[15 - i]] from characters [2 * i], [2 * i + 1]. *)
Fixpoint hexLoop (n : nat) (i : nat) (buff vv : list N) : option (list N) :=
  match n with
  | O => Some vv
  | S n' =>
      match buff !! (2 * i + 0)%nat, buff !! (2 * i + 1)%nat with
      | Some b0, Some b1 => hexLoop n' (S i) buff (<[(15 - i)%nat := strtol2 b0 b1]> vv)
      | _, _ => None
      end
  end.
(** [toBlock(u8 ptr)] reads 16 bytes, the first one lowest.
    fileBased.cpp:46. *)
Fixpoint leBytes (l : list N) : N :=
  match l with
  | [] => 0
  | b :: l' => b + 256 * leBytes l'
  end.
(** fileBased.cpp:32-47. *)
Definition hexToBlock (buff : list N) : option N :=
  match hexLoop 16 0 buff (replicate 16 0) with
  | Some vv => Some (leBytes vv)
  | None => None
  end.

(** [std::getline]: the characters up to the next newline (10), which is
    removed; fails at the end of the file. fileBased.cpp:73. *)
Fixpoint lineOf (l : list N) : list N * list N :=
  match l with
  | [] => ([], [])
  | c :: l' => if c =? 10 then ([], l') else let '(a, r) := lineOf l' in (c :: a, r)
  end.
(** fileBased.cpp:73: a call of [getline]; it fails at the end of the file. *)
Definition getline (l : list N) : option (list N * list N) :=
  match l with
  | [] => None
  | _ => Some (lineOf l)
  end.

(** fileBased.h:43-48. *)
Inductive fileType := Bin | Csv | Unspecified.

(** [file.read] into an array of 16-byte blocks, fileBased.cpp:61-62: [n] blocks. *)
Fixpoint readBlocks (n : nat) (bytes : list N) : list N :=
  match n with
  | O => []
  | S n' => leBytes (take 16 bytes) :: readBlocks n' (drop 16 bytes)
  end.

(** fileBased.cpp:73-88, [fuel] lines at most. *)
Fixpoint csvLoop (ro : list N -> N) (fuel : nat) (text : list N) (ret : list N) : outcome (list N) :=
  match getline text with
  | None => Done ret
  | Some (buffer, rest) =>
      match fuel with
      | O => OutOfFuel
      | S f =>
          match isHexBlock buffer with
          | None => UB
          | Some true =>
              match hexToBlock buffer with
              | None => UB
              | Some b => csvLoop ro f rest (ret ++ [b])
              end
          | Some false => csvLoop ro f rest (ret ++ [ro buffer])
          end
      end
  end.

(** fileBased.cpp:97-114: the duplicate check of debug mode; [seen] is [hashes]. True: throws. *)
Fixpoint dupLoop (ret seen : list N) (maxPrint : nat) : nat :=
  match ret with
  | [] => maxPrint
  | x :: ret' =>
      if bool_decide (x ∈ seen) then
        match maxPrint - 1 with
        | O => O
        | S m => dupLoop ret' seen (S m)
        end%nat
      else dupLoop ret' (x :: seen) maxPrint
  end.

(** fileBased.cpp:49-118. *)
Definition readSet (ro : list N -> N) (file : list N) (ft : fileType) (debug : bool) : outcome (list N) :=
  let check ret := if debug && negb (dupLoop ret [] 40 =? 40)%nat then Thrown [] else Done ret in
  match ft with
  | Bin => if (length file mod 16 =? 0)%nat then check (readBlocks (length file / 16) file) else Thrown []
  | Csv => match csvLoop ro (length file) file [] with
           | Done ret => check ret
           | Thrown r => Thrown r
           | UB => UB
           | OutOfFuel => OutOfFuel
           end
  | Unspecified => Thrown []
  end.

(** [file << i]: decimal digits without leading zeros, most significant
    first. fileBased.cpp:139. *)
Fixpoint decLoop (fuel : nat) (n : N) (acc : list N) : list N :=
  match fuel with
  | O => acc
  | S f => let acc' := (48 + n mod 10) :: acc in if n / 10 =? 0 then acc' else decLoop f (n / 10) acc'
  end.
(** 20 digits are enough for a 64-bit number. fileBased.cpp:139. *)
Definition decimal (n : N) : list N := decLoop 20 n [].

(** Eight bytes of a [u64], the lowest first. fileBased.cpp:134. *)
Definition u64Bytes (n : N) : list N := map (fun j => (n / 2 ^ (8 * N.of_nat j)) mod 256) (seq 0 8).

(** fileBased.cpp:120-141: the contents of the file. *)
Definition writeOutput (ft : fileType) (intersection : list N) : list N :=
  match ft with
  | Bin => concat (map u64Bytes intersection)
  | _ => concat (map (fun i => decimal i ++ [10]) intersection)
  end.

(** fileBased.cpp:143-160: the set and [theirSize] afterwards. *)
Definition padSmallSet (prng : nat -> N) (set : list N) (theirSize : N) (allowed : bool) : outcome (list N * N) :=
  if N.of_nat (length set) =? theirSize then Done (set, theirSize)
  else if negb allowed then Thrown (set, theirSize)
  else if N.of_nat (length set) <? theirSize
       then Done (set ++ map prng (seq 0 (N.to_nat theirSize - length set)), theirSize)
       else Done (set, N.of_nat (length set)).

(** *** The command line front end *)

(** The protocol flags, fileBased.cpp:217, 240, 266. *)
Inductive protocol := Kkrt | Rr17a | Ecdh.
(** The command line of one party; [None] = option not given. The options
    read at fileBased.cpp:165-190, 207, 213, 217, 240, 266; [cPad]:
    fileBased.cpp:147. *)
Record command := mkCommand {
  cIn : list N; cBin : bool; cCsv : bool; cDebug : bool; cRole : option Z; cServer : option Z;
  cSenderSize : option N; cReceiverSize : option N; cPad : bool; cKkrt : bool; cRr17a : bool; cEcdh : bool }.

(** fileBased.cpp:169-178. *)
Definition chooseType (c : command) : fileType :=
  let ft := if cCsv c then Csv else if cBin c then Bin else Unspecified in
  match ft with
  | Unspecified =>
      if hasSuffix (cIn c) [46; 98; 105; 110] then Bin
      else if hasSuffix (cIn c) [46; 99; 115; 118] then Csv else Unspecified
  | _ => ft
  end.

(** What one party starts the protocol with: protocol, sender size, receiver
    size, its set, true for the network server. fileBased.cpp:190-287. *)
Definition session : Type := protocol * N * N * list N * bool.

(** fileBased.cpp:162-292 up to the calls of [init]: [file] is the input file, [theirSize] what the other party sends.
    [None]: an exception, caught at :294. *)
Definition startup (ro : list N -> N) (prng : nat -> N) (c : command) (file : list N) (theirSize : N) : option session :=
  match chooseType c with
  | Unspecified => None
  | ft =>
      match readSet ro file ft (cDebug c) with
      | Done set =>
          let r := default 2%Z (cRole c) in
          if negb (r =? 0)%Z && negb (r =? 1)%Z then None
          else
            let isServer := default r (cServer c) in
            if negb (r =? 0)%Z && negb (r =? 1)%Z then None   (* :191 tests [r] again *)
            else
              let server := negb (isServer =? 0)%Z in
              let mine := if (r =? 0)%Z then cSenderSize c else cReceiverSize c in
              let theirs := if (r =? 0)%Z then cReceiverSize c else cSenderSize c in
              if negb (N.of_nat (length set) =? default (N.of_nat (length set)) mine) then None
              else if negb (theirSize =? default theirSize theirs) then None
              else if cKkrt c then
                if (r =? 0)%Z then Some (Kkrt, N.of_nat (length set), theirSize, set, server)
                else Some (Kkrt, theirSize, N.of_nat (length set), set, server)
              else if cRr17a c || cEcdh c then
                match padSmallSet prng set theirSize (cPad c) with
                | Done (set', _) =>
                    Some (if cRr17a c then Rr17a else Ecdh, N.of_nat (length set'), N.of_nat (length set'), set', server)
                | _ => None
                end
              else None
      | _ => None
      end
  end.
(** The size a party sends, fileBased.cpp:211. *)
Definition announced (ro : list N -> N) (c : command) (file : list N) : option N :=
  match readSet ro file (chooseType c) (cDebug c) with
  | Done set => Some (N.of_nat (length set))
  | _ => None
  end.
