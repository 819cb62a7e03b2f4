(** What the two servers of the PIR-PSI protocol receive, libPSI/PSI/Drrn/DrrnPsiClient.cpp ("Client") and DrrnPsiServer.cpp ("Server").

    The final protocol between client and server 0 (KKRT) adds its own messages, which are not part of these views. *)
From Verif Require Import Base Bgi_Model Drrn_Model.

(** A key of the point function with its group words,
    DrrnPsiClient.cpp:134-145. *)
Local Notation key := (list N * list N)%type.

(** Server 0: the keys, one row per region (Client:197, Server:365), [pi0] and [piS0] (Client:232-233, Server:427-428) of the client;
    [pi1SigmaRS] (Server:93, 49) and the masked shares (Server:421, 438) of server 1. *)
Record view0 := mkView0 { vKeys : list (list key); vPi0 : list nat; vPiS0 : list N; vRs : list N; vMsg1 : list N }.

(** The messages of the run that [Drrn_Model.drrn] describes, up to the
    final protocol. What server 0 receives in DrrnPsiServer.cpp:365,
    428-429, 441. *)
Definition view0Of (p : dparams) (enc : N -> N) (aes : bool -> N -> N) (prng : N -> N * N) (c : dchoices) (serverSet bins inputs : list N) : option view0 :=
  let P := permSize p in
  let piS1 := maskList (cMask c) P 1 in
  let s := maskList (cMask c) P 2 in
  match clientLayout p enc aes prng c inputs, tableOf bins serverSet with
  | Some l, Some data =>
      match clientPerm (piOf p l) (cPi1 c) piS1 s, sigmaMasks 0 (cSigmas c) (maskList (cMask c) P 0) with
      | Some (pi0, piS0), Some r' =>
          match maskMessage (cPi1 c) r' s, serverShares p aes (map (map qK1) l) data (cOrder1 c) with
          | Some rs, Some sh1 => Some (mkView0 (map (map qK0) l) pi0 piS0 rs (server1Message sh1 piS1))
          | _, _ => None
          end
      | _, _ => None
      end
  | _, _ => None
  end.

(** Server 1: the keys (Client:198, Server:365). It receives nothing else. *)
Definition view1Of (p : dparams) (enc : N -> N) (aes : bool -> N -> N) (prng : N -> N * N) (c : dchoices) (inputs : list N) : option (list (list key)) :=
  match clientLayout p enc aes prng c inputs with Some l => Some (map (map qK1) l) | None => None end.
