(** Property theorems about set files and the command line front end (C58-C61, C68-C71). *)
From Verif Require Import Base File_Model File_Spec File_Proofs.

(** A stand-in for the random oracle in the examples, and two rows. *)
Definition exRo (l : list N) : N := foldl (fun a c => (a * 257 + c + 1) mod 2 ^ 128) 7 l.
Definition exHexRow : list N := [48; 49; 50; 51; 52; 53; 54; 55; 56; 57; 65; 66; 67; 68; 69; 70; 97; 98; 99; 100; 101; 102; 48; 48; 48; 48; 48; 48; 48; 48; 49; 50].
Definition exName : list N := [98; 111; 98].

(** * C58 *)

Theorem C58_binary_read ro file : Forall (fun b => b < 256) file ->
  if (length file mod 16 =? 0)%nat
  then exists blocks, readSet ro file Bin false = Done blocks /\ concat (map (bytesLE 16) blocks) = file /\ Forall (fun b => b < 2 ^ 128) blocks
  else readSet ro file Bin false = Thrown [].
Proof. exact (readSet_bin_any ro file). Qed.
Print Assumptions C58_binary_read.
Theorem C58_binary_roundtrip ro blocks : Forall (fun b => b < 2 ^ 128) blocks ->
  readSet ro (concat (map (bytesLE 16) blocks)) Bin false = Done blocks.
Proof. exact (readSet_bin ro blocks). Qed.
Print Assumptions C58_binary_roundtrip.
Theorem C58_binary_write l : length (writeOutput Bin l) = (8 * length l)%nat /\
  forall i x j, l !! i = Some x -> (j < 8)%nat -> writeOutput Bin l !! (8 * i + j)%nat = Some ((x / 2 ^ (8 * N.of_nat j)) mod 256).
Proof. exact (writeOutput_bin l). Qed.
Print Assumptions C58_binary_write.
Example C58_example :
  readSet exRo (replicate 16 0 ++ [5; 1] ++ replicate 14 0) Bin false = Done [0; 261] /\
  readSet exRo (replicate 17 0) Bin false = Thrown [] /\ writeOutput Bin [258] = [2; 1; 0; 0; 0; 0; 0; 0].
Proof. vm_compute. done. Qed.

(** * C59 *)

(** Every file of rows, with or without a newline after the last row. [IsHexRow]: exactly 32 hexadecimal digits. *)
Theorem C59_csv_read ro rows : Forall (fun r => 10 ∉ r) rows ->
  exists bs, readSet ro (unlines rows) Csv false = Done bs /\
    (last rows ≠ Some [] -> readSet ro (joinLines rows) Csv false = Done bs) /\
    Forall2 (fun row b =>
      if decide (length row = 32%nat /\ Forall (fun c => (48 <= c <= 57) \/ (65 <= c <= 70) \/ (97 <= c <= 102)) row)
      then b < 2 ^ 128 /\ blockText b = map lower row else b = ro row) rows bs.
Proof.
  intros F. destruct (readSet_csv ro rows F) as (bs & E & H & J). exists bs. split; [exact E|]. split; [exact J|].
  eapply Forall2_impl; [exact H|]. intros row b Hb. unfold RowBlock in Hb.
  destruct (decide (IsHexRow row)) as [X|X], (decide (length row = 32%nat /\ _)) as [Y|Y]; try exact Hb; exfalso.
  - apply Y. destruct X as [X1 X2]. split; [exact X1|]. eapply Forall_impl; [exact X2|]. intros c. unfold isxdigit, hexVal.
    cbn beta. repeat case_match; try discriminate; lia.
  - apply X. destruct Y as [Y1 Y2]. split; [exact Y1|]. eapply Forall_impl; [exact Y2|]. intros c. unfold isxdigit, hexVal.
    cbn beta. repeat case_match; try discriminate; try reflexivity; lia.
Qed.
Print Assumptions C59_csv_read.
(** The block is determined by its text: rows that differ as numbers give distinct blocks. *)
Theorem C59_text_injective a b : a < 2 ^ 128 -> b < 2 ^ 128 -> blockText a = blockText b -> a = b.
Proof. exact (blockText_inj a b). Qed.
Print Assumptions C59_text_injective.
Example C59_example :
  readSet exRo (unlines [exName; exHexRow; []]) Csv false = Done [exRo exName; 0x0123456789ABCDEFabcdef0000000012; exRo []] /\
   blockText 0x0123456789ABCDEFabcdef0000000012 = map lower exHexRow.
Proof. vm_compute. done. Qed.

(** * C60 *)

Theorem C60_csv_write l : Forall (fun i => i < 2 ^ 64) l ->
  exists rows, writeOutput Csv l = unlines rows /\ Forall (fun r => 10 ∉ r) rows /\ map parseDecimal rows = map Some l.
Proof. exact (writeOutput_csv l). Qed.
Print Assumptions C60_csv_write.
Example C60_example : writeOutput Csv [0; 120; 18446744073709551615] =
  unlines [[48]; [49; 50; 48]; [49; 56; 52; 52; 54; 55; 52; 52; 48; 55; 51; 55; 48; 57; 53; 53; 49; 54; 49; 53]].
Proof. vm_compute. reflexivity. Qed.

(** * C61 *)

(** Both parties, with sets [s1] and [s2]. *)
Theorem C61_padding p1 p2 s1 s2 :
  (exists r1 r2 t, padSmallSet p1 s1 (N.of_nat (length s2)) true = Done (s1 ++ r1, t) /\
    padSmallSet p2 s2 (N.of_nat (length s1)) true = Done (s2 ++ r2, t) /\
    N.of_nat (length (s1 ++ r1)) = t /\ N.of_nat (length (s2 ++ r2)) = t /\ (r1 = [] \/ r2 = [])) /\
  (length s1 ≠ length s2 -> padSmallSet p1 s1 (N.of_nat (length s2)) false = Thrown (s1, N.of_nat (length s2))) /\
  (length s1 = length s2 -> padSmallSet p1 s1 (N.of_nat (length s2)) false = Done (s1, N.of_nat (length s2))).
Proof.
  split; [|split].
  - destruct (pad_ok p1 p2 s1 s2 true) as (r1 & r2 & t1 & t2 & [(E1 & E2 & L1 & L2 & Et & R & _)|(X & _)]); [|discriminate].
    exists r1, r2, t1. rewrite <- Et in *. split; [exact E1|]. split; [exact E2|]. split; [exact L1|]. split; [exact L2|exact R].
  - intros H. destruct (pad_ok p1 p2 s1 s2 false) as (r1 & r2 & t1 & t2 & [(_ & _ & _ & _ & _ & _ & X)|(_ & _ & E & _)]); [|exact E].
    apply X in H. discriminate.
  - intros H. unfold padSmallSet. rewrite H, N.eqb_refl. reflexivity.
Qed.
Print Assumptions C61_padding.
Example C61_example : padSmallSet (fun i => 100 + N.of_nat i) [1; 2] 4 true = Done ([1; 2; 100; 101], 4) /\
  padSmallSet (fun i => 0) [1; 2; 3; 4] 2 true = Done ([1; 2; 3; 4], 4) /\ padSmallSet (fun i => 0) [1] 2 false = Thrown ([1], 2).
Proof. vm_compute. done. Qed.

(** * C68 *)

Theorem C68_line_endings_refuted : exists ro rows, Forall (fun r => 10 ∉ r) rows /\
  readSet ro (unlinesCrLf rows) Csv false ≠ readSet ro (unlines rows) Csv false.
Proof.
  exists exRo, [exHexRow]. split; [|vm_compute; discriminate]. apply (bool_decide_unpack _). vm_compute. exact I.
Qed.
Print Assumptions C68_line_endings_refuted.
(** What such a file is read as: every row, also a hexadecimal one, is hashed together with the carriage return. *)
Theorem C68_line_endings_partial ro rows : Forall (fun r => 10 ∉ r) rows ->
  readSet ro (unlinesCrLf rows) Csv false = Done (map (fun r => ro (r ++ [13])) rows).
Proof. exact (readSet_crlf ro rows). Qed.
Print Assumptions C68_line_endings_partial.
Example C68_example : readSet exRo (unlinesCrLf [exName; exHexRow]) Csv false = Done [exRo (exName ++ [13]); exRo (exHexRow ++ [13])].
Proof. vm_compute. reflexivity. Qed.

(** * C69 *)

Theorem C69_debug_duplicates ro file ft set : readSet ro file ft false = Done set ->
  (NoDup set -> readSet ro file ft true = Done set) /\ (~ NoDup set -> readSet ro file ft true = Thrown []).
Proof. intros E. rewrite readSet_debug, E. destruct (decide (NoDup set)); tauto. Qed.
Print Assumptions C69_debug_duplicates.
Example C69_example : readSet exRo (unlines [exName; [97]; exName]) Csv false = Done [exRo exName; exRo [97]; exRo exName] /\
  readSet exRo (unlines [exName; [97]; exName]) Csv true = Thrown [].
Proof. vm_compute. done. Qed.

(** * C70 *)

(** The parties exchange the sizes [n1], [n2] of their files and start the same protocol. *)
Theorem C70_sessions_agree ro p1 p2 c1 c2 f1 f2 n1 n2 pr a1 b1 s1 v1 a2 b2 s2 v2 :
  cRole c1 = Some 0%Z -> cRole c2 = Some 1%Z ->
  announced ro c1 f1 = Some n1 -> announced ro c2 f2 = Some n2 ->
  startup ro p1 c1 f1 n2 = Some (pr, a1, b1, s1, v1) -> startup ro p2 c2 f2 n1 = Some (pr, a2, b2, s2, v2) ->
  a1 = a2 /\ b1 = b2 /\ N.of_nat (length s1) = a1 /\ N.of_nat (length s2) = b1 /\
  (forall n, cSenderSize c1 = Some n \/ cSenderSize c2 = Some n -> n = n1) /\
  (forall n, cReceiverSize c1 = Some n \/ cReceiverSize c2 = Some n -> n = n2).
Proof. exact (sessions_agree ro p1 p2 c1 c2 f1 f2 n1 n2 pr a1 b1 s1 v1 a2 b2 s2 v2). Qed.
Print Assumptions C70_sessions_agree.
Definition exCsv (role : Z) (server : option Z) : command :=
  mkCommand [120; 46; 99; 115; 118] false false false (Some role) server (Some 2) (Some 1) true false true false.
Example C70_example :
  startup exRo (fun _ => 9) (exCsv 0 None) (unlines [exName; [97]]) 1 = Some (Rr17a, 2, 2, [exRo exName; exRo [97]], false) /\
  startup exRo (fun _ => 9) (exCsv 1 None) (unlines [exName]) 2 = Some (Rr17a, 2, 2, [exRo exName; 9], true) /\
  announced exRo (exCsv 0 None) (unlines [exName; [97]]) = Some 2 /\ announced exRo (exCsv 1 None) (unlines [exName]) = Some 1.
Proof. vm_compute. done. Qed.

(** * C71 *)

Theorem C71_server_flag_refuted : exists ro prng c file their v s, cServer c = Some v /\ v ≠ 0%Z /\ v ≠ 1%Z /\
  startup ro prng c file their = Some s.
Proof.
  exists exRo, (fun _ => 9), (exCsv 1 (Some 7%Z)), (unlines [exName]), 2, 7%Z. eexists. split; [reflexivity|].
  split; [discriminate|]. split; [discriminate|]. vm_compute. reflexivity.
Qed.
Print Assumptions C71_server_flag_refuted.
(** The role is checked. *)
Theorem C71_role_flag_partial ro prng c file their s : startup ro prng c file their = Some s ->
  cRole c = Some 0%Z \/ cRole c = Some 1%Z.
Proof.
  intros H. destruct (startup_inv ro prng c file their s H) as (set & r & _ & E & [->| ->] & _); [left|right]; exact E.
Qed.
Print Assumptions C71_role_flag_partial.
(** Without the flag the receiver is the network server and the sender the client; with it, every value but zero makes a server. *)
Theorem C71_server_partial ro prng c file their p a b set sv : startup ro prng c file their = Some (p, a, b, set, sv) ->
  (cServer c = None -> (sv = true <-> cRole c = Some 1%Z)) /\ forall v, cServer c = Some v -> (sv = true <-> v <> 0%Z).
Proof. exact (server_default ro prng c file their p a b set sv). Qed.
Print Assumptions C71_server_partial.
Example C71_server_example :
  startup exRo (fun _ => 9) (exCsv 1 (Some 0%Z)) (unlines [exName]) 2 = Some (Rr17a, 2, 2, [exRo exName; 9], false) /\
  startup exRo (fun _ => 9) (exCsv 1 None) (unlines [exName]) 2 = Some (Rr17a, 2, 2, [exRo exName; 9], true).
Proof. vm_compute. done. Qed.
