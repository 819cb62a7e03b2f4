(** What the client of the PIR-PSI protocol sees of the final protocol, libPSI/PSI/Drrn/DrrnPsiClient.cpp ("Client"). *)
From Verif Require Import Base Bgi_Model Drrn_Model.

(** The queries whose masked value is among those of server 0: [mPsi.mIntersection] (Client:238-240), the positions replaced by the numbers of the
    queries, query [q] being hash function [q mod H] of item [q / H]. *)
Definition hitList (final : list N) (l : list (list qentry)) : list nat :=
  omap (fun e => match qReal e with Some (_, s) => if decide (s ∈ final) then Some (N.to_nat (qPi e)) else None | None => None end) (concat l).

(** The run of [Drrn_Model.drrn] up to Client:238. *)
Definition drrnHits (p : dparams) (enc : N -> N) (aes : bool -> N -> N) (prng : N -> N * N) (c : dchoices) (serverSet bins inputs : list N)
    : option (list nat) :=
  let P := permSize p in
  let r := maskList (cMask c) P 0 in
  let piS1 := maskList (cMask c) P 1 in
  let s := maskList (cMask c) P 2 in
  match clientLayout p enc aes prng c inputs, tableOf bins serverSet with
  | Some l, Some data =>
      match clientPerm (piOf p l) (cPi1 c) piS1 s, sigmaMasks 0 (cSigmas c) r with
      | Some (pi0, piS0), Some r' =>
          match maskMessage (cPi1 c) r' s,
                serverShares p aes (map (map qK0) l) data (cOrder0 c), serverShares p aes (map (map qK1) l) data (cOrder1 c) with
          | Some rs, Some sh0, Some sh1 =>
              match server0Input sh0 (server1Message sh1 piS1) rs pi0 piS0 with
              | Some final => Some (hitList final l)
              | None => None
              end
          | _, _, _ => None
          end
      | _, _ => None
      end
  | _, _ => None
  end.
