(** The exact result of a run of PRTY with the smallest communication, and the objects of the examples. *)
From stdpp Require Import sorting.
From Verif Require Import Base File_Spec Balanced_Model Balanced_Spec Prty_Model Prty_Spec PrtyDiff_Model PrtyDiff_Spec BigRun_Model BestRun_Model BestRun_Spec BestRun_Proofs.
From Verif Require Prty_Proofs Prty_Properties.

Lemma best_exact P ordB enc rs lo e R S :
  let n1 := N.of_nat (length R) in let n2 := N.of_nat (length S) in let F := fieldSizeOf n1 in let hb := hBytes n1 in let bb := bBytes n1 n2 in
  anyOrder ordB -> lightLoads enc R -> Forall (fun x => x < 2 ^ 128) R -> NoDup R -> noNeighbours R -> interpolates P F -> (forall x, henc P x < 2 ^ 128) -> masksDistinct32 P F R ->
  (forall es, lo es ≡ₚ es) -> envFine e -> 1 <= n1 -> 4 <= n2 -> n1 * n2 < 2 ^ 64 ->
  (forall h x, h < 2 -> x ∈ R -> recvMask P F (point h x) mod 2 ^ (8 * N.of_nat bb) <> 0) ->
  exists bins, balanced ordB enc 40 1 R rs = Done bins /\
    ((forall h, h < 2 -> roomFor hb bb (bSort e h (map (senderMask P F enc R bins h) S))) -> noFalseMatch P F enc R bins S hb ->
     exists out, bestRun P ordB enc rs lo e R S = Done out /\ forall i, i ∈ out <-> exists x, R !! i = Some x /\ x ∈ S).
Proof.
  intros n1 n2 F hb bb HO HL HB HR HN HI Hhe HM Hlo He Hn1 Hn2 Hn Hz.
  destruct (best_run P ordB enc rs lo e R S) as (bins & Eb & Hrun); [done..|]. exists bins. split; [done|]. intros Hroom Hf. destruct (Hrun Hroom) as (out & Eo & Hc & Hs).
  exists out. split; [done|]. intros i. split; [|intros (x & Hx & HxS); by eapply Hc].
  intros (x & h & Hx & Hh & Hor)%Hs. exists x. split; [done|]. assert (x ∈ R) as HxR by (by eapply elem_of_list_lookup_2). fold n1 n2 F hb bb in Hor.
  assert (forall k a, low k a = a mod 2 ^ (8 * N.of_nat k)) as Hlow. { intros k a. unfold low. done. }
  rewrite !Hlow in Hor. destruct Hor as [(y & Hy & E)|E]; [|by destruct (Hz h x Hh HxR)]. rewrite Hlow in E. by rewrite (Hf h x y Hh HxR Hy E).
Qed.

(** * Objects of the examples *)
Definition bP : prty := mkPrty (aesT Prty_Properties.exP) (aesU Prty_Properties.exP) Nat.odd (fun b => b mod 2 ^ 128) Prty_Properties.tableInterp.
Definition memcmpLe (a c : N) : Prop := bytesLt (bytesLE 16 c) (bytesLE 16 a) = false.
Global Instance memcmpLe_dec a c : Decision (memcmpLe a c).
Proof. unfold memcmpLe. apply _. Defined.
Definition bE : bestEnv := mkBestEnv (fun _ => merge_sort memcmpLe) (fun _ _ => 0) (fun _ => 0) (fun _ => 0).
Lemma bE_fine : envFine bE.
Proof. split; [|done]. intros h l. apply merge_sort_Permutation. Qed.
Definition masks32Check (P : prty) (F : nat) (R : list N) : bool :=
  let ks := concat (map (fun x => [(x, recvMask P F x mod 2 ^ 32); (x, recvMask P F (N.lxor x 1) mod 2 ^ 32)]) R) in
  forallb (fun a : N * N => forallb (fun b : N * N => if a.2 =? b.2 then a.1 =? b.1 else true) ks) ks.
Lemma masks32_ok P F R : masks32Check P F R = true -> masksDistinct32 P F R.
Proof.
  intros H h h' x y Hh Hh' Hx Hy E. unfold masks32Check in H. set (ks := concat _) in H.
  assert (forall h x, h < 2 -> x ∈ R -> In (x, recvMask P F (point h x) mod 2 ^ 32) ks) as Hk.
  { clear. intros h x Hh Hx. apply elem_of_list_In, elem_of_concat. eexists. split; [|apply (elem_of_list_fmap_1 (fun x => [(x, recvMask P F x mod 2 ^ 32); (x, recvMask P F (N.lxor x 1) mod 2 ^ 32)])), Hx].
    assert (h = 0 \/ h = 1) as [-> | ->] by lia; [left|right; left]. }
  rewrite forallb_forall in H. specialize (H _ (Hk h x Hh Hx)). rewrite forallb_forall in H. specialize (H _ (Hk h' y Hh' Hy)). cbn [fst snd] in H.
  rewrite E, N.eqb_refl in H. by apply N.eqb_eq.
Qed.
Fixpoint distinctCheck (h : nat) (ms : list N) : bool := match ms with m :: ((m' :: _) as ms') => negb (low h m =? low h m') && distinctCheck h ms' | _ => true end.
Definition roomCheck (h b : nat) (ms : list N) : bool := ((b + h * (length ms - 1) + b * escapes h ms <? length ms * h * 102 / 100)%nat && distinctCheck h ms).
Lemma room_ok h b ms : roomCheck h b ms = true -> roomFor h b ms.
Proof.
  intros [H1 H2]%andb_prop. split; [by apply Nat.ltb_lt|]. clear H1. induction ms as [|m ms IH]; [done|]. destruct ms as [|m' ms]; [done|]. cbn [distinctCheck] in H2. apply andb_prop in H2 as [H2 H3].
  split; [|by apply IH]. by apply negb_true_iff, N.eqb_neq in H2.
Qed.
Definition R20 : list N := map (fun i => 3 + 4 * N.of_nat i) (seq 0 20).
Definition S10 : list N := take 5 (rev R20) ++ map (fun i => 1000 + 7 * N.of_nat i) (seq 0 5).
Definition bins20 : list (list bitem) := match balanced Prty_Properties.exId (fun x => x) 40 1 R20 [] with Done b => b | _ => [] end.
Definition R5 : list N := [3; 7; 11; 15; 19].
Definition S4 : list N := [3; 7; 11; 15].
