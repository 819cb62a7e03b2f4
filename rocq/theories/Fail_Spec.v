(** How [sendInput] must end when checks fail: vocabulary. *)
From Verif Require Import Base Fail_Model.

(** All checks of a part hold. *)
Definition holds (p : part) : Prop := false ∉ pFirst p /\ false ∉ pOwn p /\ forall l, l ∈ pThreads p -> false ∉ l.
(** The ending of a list of parts, whatever the schedule: the first part with a check that fails decides. *)
Inductive ends : list part -> ending -> Prop :=
| endsReturn : ends [] Returned
| endsNext p ps e : holds p -> ends ps e -> ends (p :: ps) e
| endsFirst p ps : false ∈ pFirst p -> ends (p :: ps) Exception
| endsAlone p ps : false ∉ pFirst p -> pThreads p = [] -> false ∈ pOwn p -> ends (p :: ps) Exception
| endsThreads p ps : false ∉ pFirst p -> pThreads p <> [] -> (false ∈ pOwn p \/ exists l, l ∈ pThreads p /\ false ∈ l) -> ends (p :: ps) Terminated.
(** The parties that check inputs or sizes before they start threads. *)
Definition checksFirst (p : party) : Prop := p ∉ [EcdhS; EcdhR; DktS; DktR].
(** The parties in which [T] channels mean threads. *)
Definition threaded (p : party) (T : nat) : Prop :=
  match p with KkrtR | DcwS | DcwR => False | DktS | DktR | Rr16R => (2 <= T)%nat | _ => (1 <= T)%nat end.
(** The thread with a check in part 0: the shares of the protocol, except the share of the caller. *)
Definition onThread (p : party) (T t : nat) : Prop :=
  match p with KkrtR | DcwS | DcwR => False | DktS | DktR | Rr16R => (1 <= t < T)%nat | KkrtS => t = 1%nat | _ => (t < T)%nat end.
