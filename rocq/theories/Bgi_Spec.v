(** Vocabulary of the statements about the distributed point function and the PIR. *)
From Verif Require Import Base Bgi_Model.

(** Number of positions. *)
Definition domainSize (depth gs : nat) : N := 2 ^ N.of_nat depth * N.of_nat gs * 128.

(** XOR of the blocks. *)
Definition xorAll (l : list N) : N := foldr N.lxor 0 l.
(** XOR of the records at the positions selected by [f]. *)
Definition selectXor (f : N -> bool) (data : list N) : N :=
  xorAll (imap (fun p x => if f (N.of_nat p) then x else 0) data).

(** All positions, in order. *)
Definition allPositions (n : N) : list N := map N.of_nat (seq 0 (N.to_nat n)).

(** The (position, value) pairs of a list of chunks (first position, values). *)
Definition spread (chunks : list (N * list N)) : list (N * N) :=
  concat (map (fun c => imap (fun i b => (c.1 + N.of_nat i, b)) c.2) chunks).

(** [while (gen.hasMore()) gen.yeild()], collecting what is returned. *)
Fixpoint drain (aes : bool -> N -> N) (fuel : nat) (o : generator) : outcome (generator * list (N * list N)) :=
  if gnHasMore o then
    match fuel with
    | O => OutOfFuel
    | S f =>
        match genYield aes o with
        | Done (o', cs) =>
            match drain aes f o' with
            | Done (o'', r) => Done (o'', cs ++ r)
            | Thrown (o'', r) => Thrown (o'', cs ++ r)
            | UB => UB
            | OutOfFuel => OutOfFuel
            end
        | Thrown (o', cs) => Thrown (o', cs)
        | UB => UB
        | OutOfFuel => OutOfFuel
        end
    end
  else Done (o, []).

(** [n] calls of [MultiKey::yeild]. *)
Fixpoint yields (aes : bool -> N -> N) (n : nat) (o : multiKey) : outcome (multiKey * list (list N)) :=
  match n with
  | O => Done (o, [])
  | S n' =>
      match mkYield aes o with
      | Done (o', row) =>
          match yields aes n' o' with
          | Done (o'', rows) => Done (o'', row :: rows)
          | Thrown (o'', rows) => Thrown (o'', row :: rows)
          | UB => UB
          | OutOfFuel => OutOfFuel
          end
      | Thrown (o', _) => Thrown (o', [])
      | UB => UB
      | OutOfFuel => OutOfFuel
      end
  end.
