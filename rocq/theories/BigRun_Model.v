(** Model of a complete run of PRTY with the big polynomial, libPSI/PSI/Prty/PrtyReceiver.cpp ("Receiver") and PrtySender.cpp ("Sender"), the functions
    [outputBigPoly], from the items to [mIntersection].

    The parts: rows and masks (Prty_Model), the three slices of the polynomial (PolyBig_Model), the masks as differences (PrtyDiff_Model). The member
    [simple.mAesHasher] of Sender:964 does not exist in SimpleIndex; it is taken to have the key of the receiver's [mBalance.mAesHasher]. The memory behind a
    received message and the bytes that are not initialised are arbitrary. The pushes of the threads to [mIntersection] are put one after the other
    (Collect_Model: any order, under the lock). *)
From Verif Require Import Base Prty_Model PolyTree_Model PolyBig_Model PrtyDiff_Model.
Local Open Scope nat_scope.

(** One slice: the field with its conversions, schedules, and the old
    contents of the two work arrays. The receiver makes the slices at
    PrtyReceiver.cpp:714-813, the sender evaluates them at
    PrtySender.cpp:850-905. *)
Record slice := mkSlice { sK : fops; sRep : fT sK -> N; sOf : N -> fT sK; sSch : scheds; sOld1 : list (list (fT sK)); sOld2 : list (list (fT sK)) }.
(** Receiver:720-812, Sender:815-918. [lim]: 256 to the number of bytes of a value; [T1], [T2]: threads of the receiver; [T3]: of the sender. *)
Definition runSlice (s : slice) (lim : N) (T1 T2 T3 : nat) (xs ys zs : list N) : outcome (list N) :=
  bigSlice (sK s) (sRep s) (sOf s) lim (sSch s) T1 T2 T3 (sOld1 s) (sOld2 s) xs ys zs.

(** The arbitrary parts of a run: what is behind the first bytes of the last block (Sender:946-947), the order in which the threads fill [localMasks]
    (Receiver:683-691), the order of the sort (Sender:1001), the memory behind message [k] of thread [t], and the two blocks of Receiver:908. *)
Record bigEnv := mkBigEnv { eJunk : nat -> N; eIns : list (N * nat) -> list (N * nat); eSort : list N -> list N;
  eMem : nat -> nat -> nat -> N; eG1 : N; eG2 : N }.

(** Receiver:650-668. *)
Definition bigRow (P : prty) (F : nat) (x : N) : list N := xorRows (prfRow (aesT P) F x) (prfRow (aesU P) F x).
(** Receiver:739-745, 791-795: the values of an item in the three slices; the last one is made of [lastBytes] bytes from the third block on. *)
Definition lastLim (F : nat) : N := (256 ^ lastBytes (N.of_nat F))%N.
(** PrtyReceiver.cpp:739-745, 791-795: value number [j] of the row of an
    item. *)
Definition sliceVal (F j : nat) (row : list N) : N :=
  match j with
  | 0 => nth 0 row 0%N
  | 1 => nth 1 row 0%N
  | _ => ((nth 2 row 0 + 2 ^ 128 * nth 3 row 0) mod lastLim F)%N
  end.
(** Sender:932-954: the row from the values of the three slices; [junk]: the bytes of the last block behind those that [BytesFromZZ] writes. *)
Definition rowOf (F : nat) (junk o0 o1 o2 : N) : list N :=
  [o0; o1; (o2 mod 2 ^ 128)%N; (o2 / 2 ^ 128 + 256 ^ (lastBytes (N.of_nat F) - 16) * junk)%N].
(** Sender:920-988: the masks in the order of the items. *)
Definition bigMasks (P : prty) (F : nat) (junk : nat -> N) (o0 o1 o2 zs : list N) : list N :=
  imap (fun j z => sendMask P F (rowOf F (junk j) (nth j o0 0%N) (nth j o1 0%N) (nth j o2 0%N)) z) zs.
(** Receiver:670-695: the local masks with the positions of the items. *)
Definition bigEntries (P : prty) (F : nat) (xs : list N) : list (N * nat) := imap (fun i x => (recvMask P F x, i)) xs.

(** The message in memory. The buffer received at PrtyReceiver.cpp:900 and
    what lies behind it in memory, [g] (a decoder that reads too far gets
    it). *)
Definition around (buf : list N) (g : nat -> N) (i : nat) : N := if i <? length buf then nth i buf 0%N else g i.
(** Receiver:889-983, thread [t]: one message for each of its own steps, for the [n2] items that the sender has announced. [Thrown]: it waits for a message that
    never comes. *)
Fixpoint recvMsgs (h b : nat) (g1 g2 : N) (m : list (N * nat)) (mem : nat -> nat -> N) (ss : list (nat * nat)) (msgs : list (list N)) (k : nat) : outcome (list nat) :=
  match ss with
  | [] => Done []
  | _ :: ss' =>
      match msgs with
      | [] => Thrown []
      | buf :: msgs' =>
          match decode (length buf) h b (peekMem (around buf (mem k))) g1 g2 with
          | Done vs => match recvMsgs h b g1 g2 m mem ss' msgs' (S k) with Done l => Done (lookups m vs ++ l) | o => o end
          | _ => UB
          end
      end
  end.
(** PrtyReceiver.cpp:889-983: thread [t] takes its messages one after the
    other. *)
Definition recvBig (e : bigEnv) (h b step T n2 t : nat) (m : list (N * nat)) (msgs : list (list N)) : outcome (list nat) :=
  match diffSteps step n2 T t with
  | None => UB
  | Some ss => recvMsgs h b (eG1 e) (eG2 e) m (eMem e t) ss msgs 0
  end.
(** All threads: Sender:1010-1084, Receiver:986-994. *)
Fixpoint exchangeMasks (e : bigEnv) (h b step T : nat) (m : list (N * nat)) (sorted : list N) (ts : list nat) : outcome (list nat) :=
  match ts with
  | [] => Done []
  | t :: ts' =>
      match sendBig h b step T t sorted with
      | Done msgs =>
          match recvBig e h b step T (length sorted) t m msgs, exchangeMasks e h b step T m sorted ts' with
          | Done l, Done l' => Done (l ++ l')
          | Thrown _, _ => Thrown [] | _, Thrown _ => Thrown []
          | _, _ => UB
          end
      | _ => UB
      end
  end.

(** The run: [xs] the receiver's items, [zs] the sender's. Slices 0 and 1: [T] threads everywhere; slice 2: the receiver prepares with one thread
    (Receiver:798-800) and the sender uses one (Sender:893, 912). [step]: [stepSizeMaskSent]. *)
Definition bigRun (P : prty) (e : bigEnv) (a0 a1 a2 : slice) (step T : nat) (xs zs : list N) : outcome (list nat) :=
  let n1 := N.of_nat (length xs) in let n2 := N.of_nat (length zs) in
  let F := fieldSizeOf n1 in
  let vals j := map (fun x => sliceVal F j (bigRow P F x)) xs in
  match runSlice a0 (2 ^ 128) T T T xs (vals 0) zs, runSlice a1 (2 ^ 128) T T T xs (vals 1) zs, runSlice a2 (lastLim F) 1 T 1 xs (vals 2) zs with
  | Done o0, Done o1, Done o2 =>
      exchangeMasks e (hBytes n1) (bBytes n1 n2) step T (emplace32 (eIns e (bigEntries P F xs)) [])
        (eSort e (bigMasks P F (eJunk e) o0 o1 o2 zs)) (seq 0 T)
  | Thrown _, _, _ => Thrown [] | _, Thrown _, _ => Thrown [] | _, _, Thrown _ => Thrown []
  | _, _, _ => UB
  end.
