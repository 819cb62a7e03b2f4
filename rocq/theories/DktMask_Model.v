(** The mask messages of DKT, sender and receiver, one thread. *)
From Verif Require Import Base Dkt_Model.
Local Open Scope nat_scope.

(** The masks of one thread cut into messages: DktMPsiSender.cpp:373-402; [step] is the constant 512 of line 376. Fuel: the number of masks is enough for
    [0 < step]; out of fuel the rest is dropped. *)
Fixpoint maskViews (step fuel : nat) (l : list N) : list (list N) :=
  match fuel, l with
  | S fuel', _ :: _ => take (min (length l) step) l :: maskViews step fuel' (drop (min (length l) step) l)
  | _, _ => []
  end.
(** [512], DktMPsiSender.cpp:376. *)
Definition viewStep : nat := 512.

(** The loop of DktMPsiReceiver.cpp:497-530: [need] is [theirInputEndIdx - i] (0 once [i] has passed it), [msgs] the messages that arrive, [out] the positions reported so
    far ([mIntersection] or [localIntersections[t-1]]). Result: the positions and the messages that were not taken. [OutOfFuel]: all messages are taken and the thread waits for
    another one. [i] does not reach 2^64. *)
Fixpoint maskLoop (table : list (N * (N * nat))) (need : nat) (msgs : list (list N)) (out : list N) : outcome (list N * list (list N)) :=
  match need with
  | O => Done (out, msgs)
  | S _ =>
      match msgs with
      | [] => OutOfFuel
      | v :: rest => maskLoop table (need - length v) rest (out ++ omap (lookupTs table) v)
      end
  end.
