(** The masks of the GRR18 sender when the receiver announces its loads freely: libPSI/MPSI/Grr18/Grr18MPsiSender.cpp:393-520.

    The receiver sends, per channel, the number of its OTs ([theirTotalLoad], 64 bits) and one byte per bin ([theirLoads]). Here a thread is a list of its bins, each
    with the number of the sender's items in it and the announced load. Messages of another length than the number of bins are refused by the channel. *)
From Verif Require Import Base.

(** A use of an OT and the row of [masks] its mask is written to. Grr18MPsiSender.cpp:485-513. *)
Record use := mkUse { uOt : nat; uRow : nat }.

(** Grr18MPsiSender.cpp:485-513: the loop over [l < binLoad], from [innerOtIdx] and [maskPermIdx]. *)
Fixpoint loadLoop (load ot row : nat) : list use :=
  match load with O => [] | S k => mkUse ot row :: loadLoop k (S ot) (S row) end.
(** Grr18MPsiSender.cpp:476-514: the items of a bin; every item starts at the same [otIdx]. Result: the uses and [maskPermIdx] afterwards. *)
Fixpoint itemLoop (items load ot row : nat) : list use * nat :=
  match items with
  | O => ([], row)
  | S k => let '(us, row') := itemLoop k load ot (row + load) in (loadLoop load ot row ++ us, row')
  end.
(** Grr18MPsiSender.cpp:464-520: the bins of a thread; [otIdx += binLoad] after each bin (:516). The division into steps does not change the order. *)
Fixpoint binLoop (bins : list (nat * nat)) (ot row : nat) : list use :=
  match bins with
  | [] => []
  | (items, load) :: bins' => let '(us, row') := itemLoop items load ot row in us ++ binLoop bins' (ot + load) row'
  end.
(** Grr18MPsiSender.cpp:401, 411-417: [numLocalMasks] of a thread. Simplification: no wrap at 2^64. *)
Definition localMasks (bins : list (nat * nat)) : nat := fold_left (fun s b => (s + b.1 * b.2)%nat) bins 0%nat.
(** Grr18MPsiSender.cpp:460: [maskIdx.fetch_add(numLocalMasks)] by the threads in the order [order], from the value [idx] on. *)
Fixpoint fetchRows (threads : list (list (nat * nat))) (order : list nat) (idx : nat) : list (nat * nat) :=
  match order with
  | [] => []
  | t :: o => (t, idx) :: fetchRows threads o (idx + localMasks (default [] (threads !! t)))
  end.
(** All uses, with their thread. Grr18MPsiSender.cpp:460-520. *)
Definition allUses (threads : list (list (nat * nat))) (order : list nat) : list (nat * use) :=
  concat (map (fun f : nat * nat => map (pair f.1) (binLoop (default [] (threads !! f.1)) 0 f.2)) (fetchRows threads order 0)).
(** Grr18MPsiSender.cpp:422, 436-438: the rows of [masks]; [surplus] is [buffer + lap] after its conversion. *)
Definition maskRows (threads : list (list (nat * nat))) (surplus : nat) : nat :=
  (fold_left (fun s b => (s + localMasks b)%nat) threads 0 + surplus)%nat.
(** Grr18MPsiSender.cpp:393-520. [totals]: the announced numbers of OTs, with which the OTs are set up (:394). [UB]: an OT beyond these, or a row outside [masks]. What the OT extension
    does with a number beyond those it was set up with is external and counted as [UB]. The conversion of a negative [surplus] (:436) is [UB]. *)
Definition senderMasks (threads : list (list (nat * nat))) (totals order : list nat) (surplus : Z) : outcome (list (nat * use)) :=
  if (surplus <? 0)%Z then UB
  else let us := allUses threads order in
       if forallb (fun u : nat * use => (uOt u.2 <? default 0 (totals !! u.1))%nat && (uRow u.2 <? maskRows threads (Z.to_nat surplus))%nat) us then Done us else UB.
