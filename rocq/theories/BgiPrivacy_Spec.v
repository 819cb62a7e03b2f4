(** Vocabulary of the statement that one server's key does not depend on the position.

    A key that a server gets is made of its own root, of what it computes from it, and of the expansions of the other server's blocks along the
    path: two blocks per level and the pad of the leaf. These expansions are the [tape]. *)
From Verif Require Import Base Bgi_Model Bgi_Spec.

Definition tape : Type := list (N * N) * list N.
Definition legalTape (depth gs : nat) (t : tape) : Prop :=
  length t.1 = depth /\ length t.2 = gs /\ Forall (fun x => x.1 < 2 ^ 128 /\ x.2 < 2 ^ 128) t.1 /\ Forall (fun b => b < 2 ^ 128) t.2.

(** Correction word and own leaf, from the own root [s] and the expansions of the other root. *)
Definition tapeCw (aes : bool -> N -> N) (keep : bool) (s : N) (x : N * N) : N :=
  let y0 := N.lxor (prg aes false (notThree s)) x.1 in
  let y1 := N.lxor (prg aes true (notThree s)) x.2 in
  N.lxor (N.lxor (notThree (if keep then y0 else y1)) (N.shiftl (bit2N (negb (xorb (lsb y0) keep))) 1)) (bit2N (xorb (lsb y1) keep)).
Fixpoint tapeCws (aes : bool -> N -> N) (kIdx s : N) (l : list (N * N)) : list N * N :=
  match l with
  | [] => ([], s)
  | x :: l' =>
      let keep := N.testbit kIdx (N.of_nat (length l')) in
      let cw := tapeCw aes keep s x in
      let r := tapeCws aes kIdx (traverseOne aes s cw keep) l' in (cw :: r.1, r.2)
  end.
(** Bit of the leaf that stands for offset [gIdx]. *)
Definition pointBlock (gIdx : N) (i : nat) : N :=
  if gIdx / 128 =? N.of_nat i then N.shiftl 1 (8 * (gIdx mod 16) + (gIdx mod 128) / 16) else 0.
(** What the server with root [s] gets for position [idx]. *)
Definition keyOf (aes : bool -> N -> N) (gs : nat) (idx s : N) (t : tape) : list N * list N :=
  let r := tapeCws aes (idx / (N.of_nat gs * 128)) s t.1 in
  (s :: r.1, imap (fun i b => N.lxor (N.lxor (leafBlock aes r.2 i) b) (pointBlock (idx mod (N.of_nat gs * 128)) i)) t.2).

(** A permutation of the tapes: uniform tapes stay uniform. *)
Definition permutesTapes (depth gs : nat) (f : tape -> tape) : Prop :=
  exists g, forall t, legalTape depth gs t -> legalTape depth gs (f t) /\ legalTape depth gs (g t) /\ g (f t) = t /\ f (g t) = t.

(** The tape of a run: the expansions of the blocks on the path of key [s :: cws], and of the leaf. *)
Fixpoint pathTape (aes : bool -> N -> N) (kIdx s : N) (cws : list N) : list (N * N) * N :=
  match cws with
  | [] => ([], s)
  | cw :: cws' =>
      let r := pathTape aes kIdx (traverseOne aes s cw (N.testbit kIdx (N.of_nat (length cws')))) cws' in
      ((prg aes false (notThree s), prg aes true (notThree s)) :: r.1, r.2)
  end.
Definition tapeOf (aes : bool -> N -> N) (gs : nat) (idx s : N) (cws : list N) : tape :=
  let r := pathTape aes (idx / (N.of_nat gs * 128)) s cws in (r.1, map (leafBlock aes r.2) (seq 0 gs)).
