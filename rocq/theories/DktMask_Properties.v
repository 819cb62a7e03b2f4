(** Property theorems about the mask messages of DKT (C214). *)
From Verif Require Import Base Dkt_Model DktMask_Model DktMask_Spec DktMask_Proofs.
Local Open Scope nat_scope.

(** An honest sender: every mask is looked up once, in order, and no message of others is taken. *)
Theorem C214_honest table l rest out : maskLoop table (length l) (maskViews viewStep (length l) l ++ rest) out = Done (out ++ positionsOf (lookupTs table) l, rest).
Proof. exact (honest_ok table l rest out). Qed.
Print Assumptions C214_honest.
Theorem C214_views l : concat (maskViews viewStep (length l) l) = l /\ Forall (fun v => v <> [] /\ length v <= 512) (maskViews viewStep (length l) l).
Proof. split; [apply views_concat; unfold viewStep; lia|apply views_nonempty; unfold viewStep; lia]. Qed.
Print Assumptions C214_views.

(** The same number of masks in any other messages gives the same result. *)
Theorem C214_framing table need msgs msgs' rest rest' out : completes_at need msgs -> completes_at need msgs' -> concat msgs = concat msgs' ->
  exists r, maskLoop table need (msgs ++ rest) out = Done (r, rest) /\ maskLoop table need (msgs' ++ rest') out = Done (r, rest').
Proof. intros H H' E. exists (out ++ positionsOf (lookupTs table) (concat msgs)). split; [by apply loop_ok|]. rewrite E. by apply loop_ok. Qed.
Print Assumptions C214_framing.

Definition exTable : list (N * (N * nat)) := foldl hashsInsert [] [(11%N, 0); (12%N, 1); (13%N, 2)].
Example C214_example : maskLoop exTable 3 [[12; 99]; []; [11]; [13]]%N [7]%N = Done ([7; 1; 0]%N, [[13]]%N) /\
  maskLoop exTable 3 [[12]; [99; 11]; [13]]%N [7]%N = Done ([7; 1; 0]%N, [[13]]%N) /\
  map length (maskViews viewStep 1030 (replicate 1030 5%N)) = [512; 512; 6].
Proof. repeat split; by vm_compute. Qed.
Example C214_completes_example : completes_at 3 [[12; 99]; []; [11]]%N.
Proof.
  split; [cbn; lia|]. intros a b E Hb. destruct a as [|x [|y [|z a]]]; cbn in E; inversion E; subst; cbn; try lia. exfalso. apply Hb. destruct a; [|done]. by destruct b.
Qed.

(** The loop looks at the number of masks only between messages: the sender announced one mask, and three are looked up and reported. *)
Theorem C214_announced_refuted : exists table need msgs out, maskLoop table need msgs [] = Done (out, []) /\ need < length out.
Proof. exists exTable, 1, [[12; 11; 13]]%N, [1; 0; 2]%N. split; [by vm_compute|]. cbn. lia. Qed.
Print Assumptions C214_announced_refuted.
(** Missing: a last message with more masks than were left. *)
Theorem C214_announced_partial table need msgs out r : maskLoop table need msgs out = Done r ->
  exists taken, msgs = taken ++ r.2 /\ completes_at need taken /\ r.1 = out ++ positionsOf (lookupTs table) (concat taken).
Proof. exact (done_cases table need msgs out r). Qed.
Print Assumptions C214_announced_partial.

(** Too few masks: the thread waits, however many (empty) messages arrive. *)
Theorem C214_waits table need msgs out : length (concat msgs) < need -> maskLoop table need msgs out = OutOfFuel.
Proof. exact (loop_waits table msgs need out). Qed.
Print Assumptions C214_waits.
Example C214_waits_example : length (concat [[]; [12%N]; []; []]) < 2 /\ maskLoop exTable 2 [[]; [12%N]; []; []] [] = OutOfFuel.
Proof. split; [cbn; lia|by vm_compute]. Qed.
