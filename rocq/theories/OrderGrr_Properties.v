(** Property theorems about the places of the mask rows of GRR18 (C157). *)
From Verif Require Import Base Rr17_Model Rr17a_Model Rr17a_Spec Rr17a_Properties Grr18_Model Grr18_Spec Grr18_Properties Order_Spec OrderGrr_Spec OrderGrr_Proofs.

(** * C157 *)

(** Two sets that differ in one item which the receiver does not hold, the same announced loads: whatever the randomness, the rows of the common item are in
    different places. *)
Theorem C157_places_refuted : exists R S S', sameCommon R S S' /\
  forall P l rd rd', pHash P = false -> pN P = 2%nat -> pNb P = 3%nat -> pT P = 1%nat -> paramsOk P S -> paramsOk P S' -> (0 < l <= pCap P)%nat ->
    let ls := replicate 3 l in
    noSharedRow P ls ls R (S ++ S') -> grrRandOk P ls ls rd -> grrRandOk P ls ls rd' ->
    let known m := exists x, x ∈ R /\ rowOf P ls ls x m in
    exists rows rows', sentG P rd ls ls S = Some rows /\ sentG P rd' ls ls S' = Some rows' /\
      (exists p m, rows !! p = Some m /\ known m) /\ (exists p m, rows' !! p = Some m /\ known m) /\
      forall p m m', rows !! p = Some m -> rows' !! p = Some m' -> ~ (known m /\ known m').
Proof.
  exists [1; 28], [1; 9], [1; 20]. split.
  { split; [by apply (bool_decide_unpack _)|]. split; [by apply (bool_decide_unpack _)|]. split; [done|]. intros x Hx. rewrite !elem_of_cons in *.
    destruct Hx as [->|[->|Hx]]; [tauto| |by apply elem_of_nil in Hx]. split; intros [H|[H|H]]; try done; by apply elem_of_nil in H. }
  intros P l rd rd' HH Hn Hb HT HS HS' Hl ls HN HD HD' known.
  assert (forall x, itemBin P x = binOf 3 x) as HI by (intros x; unfold itemBin, hashed; by rewrite HH, Hb).
  assert (forall T b, load P T b = length (filter (fun x => binOf 3 x = b) T)) as HL.
  { intros T b. unfold load. induction T as [|x T IH]; [done|]. rewrite !filter_cons. destruct (decide (itemBin P x = b)) as [E|E], (decide (binOf 3 x = b)) as [E'|E']; rewrite HI in E; try done. cbn. by rewrite IH. }
  assert (forall T, paramsOk P T -> (forall b, (load P T b <= 1)%nat) -> loadsOk P T ls) as HO.
  { intros T _ H. split; [by unfold ls; rewrite replicate_length|]. intros b k E. apply lookup_replicate in E as [-> _]. split; [|lia]. specialize (H b). lia. }
  assert (forall b, (load P [1%N; 9%N] b <= 1)%nat) as B1. { intros b. rewrite HL. destruct b as [|[|[|b]]]; vm_compute; lia. }
  assert (forall b, (load P [1%N; 20%N] b <= 1)%nat) as B2. { intros b. rewrite HL. destruct b as [|[|[|b]]]; vm_compute; lia. }
  destruct (grr_places P ls ls rd [1; 9] HS HT (HO _ HS B1) HD [1; 28]) as (rows & E & _ & A & C).
  { intros x y m Hx Hy. apply HN; [done|]. apply elem_of_app. by left. }
  destruct (grr_places P ls ls rd' [1; 20] HS' HT (HO _ HS' B2) HD' [1; 28]) as (rows' & E' & _ & A' & C').
  { intros x y m Hx Hy. apply HN; [done|]. apply elem_of_app. by right. }
  assert (0 < default 0%nat (ls !! itemBin P 1%N))%nat as H0. { rewrite HI. vm_compute binOf. cbn. unfold id. lia. }
  exists rows, rows'. split; [done|]. split; [done|]. split; [|split].
  - destruct (C 1 ltac:(left) ltac:(left) H0) as (p & m & Hp & Hm). exists p, m. split; [done|]. exists 1. split; [left|done].
  - destruct (C' 1 ltac:(left) ltac:(left) H0) as (p & m & Hp & Hm). exists p, m. split; [done|]. exists 1. split; [left|done].
  - intros p m m' Hp Hp' [(x & Hx & Mx) (x' & Hx' & Mx')]. destruct (A p m x Hp Hx Mx) as [Sx Px]. destruct (A' p m' x' Hp' Hx' Mx') as [Sx' Px'].
    assert (x = 1) as ->. { rewrite !elem_of_cons, elem_of_nil in *. lia. } assert (x' = 1) as ->. { rewrite !elem_of_cons, elem_of_nil in *. lia. }
    rewrite HI in Px, Px'. change (binOf 3 1) with 1%nat in Px, Px'. unfold rowsBelow in Px, Px'. cbn [seq map list_sum fold_right Nat.add] in Px, Px'.
    rewrite !HL in Px, Px'. unfold ls in Px, Px'. cbn [lookup list_lookup replicate default] in Px, Px'. unfold id in Px, Px'.
    repeat match type of Px with context [length ?t] => let v := eval vm_compute in (length t) in change (length t) with v in Px end.
    repeat match type of Px' with context [length ?t] => let v := eval vm_compute in (length t) in change (length t) with v in Px' end.
    lia.
Qed.
Print Assumptions C157_places_refuted.

(** One channel, any loads: the rows of a common item begin after as many rows as the sender's items in the bins before take. The receiver knows the loads [lR].
    Missing: the hiding of the places. *)
Theorem C157_places_partial P lR lS rd R S : paramsOk P S -> pT P = 1%nat -> loadsOk P S lS -> grrRandOk P lR lS rd -> noSharedRow P lR lS R S ->
  exists rows, sentG P rd lR lS S = Some rows /\ length rows = rowsBelow P lR S (pNb P) /\
    (forall p m x, rows !! p = Some m -> x ∈ R -> rowOf P lR lS x m ->
      x ∈ S /\ (rowsBelow P lR S (itemBin P x) <= p < rowsBelow P lR S (itemBin P x + 1))%nat) /\
    (forall x, x ∈ R -> x ∈ S -> (0 < default 0%nat (lR !! itemBin P x))%nat -> exists p m, rows !! p = Some m /\ rowOf P lR lS x m).
Proof. intros HP HT HL HD HN. exact (grr_places P lR lS rd S HP HT HL HD R HN). Qed.
Print Assumptions C157_places_partial.

Lemma shared_check P lR lS R S :
  forallb (fun x => forallb (fun y => (x =? y) || forallb (fun a => forallb (fun b => negb (a mod 2 ^ (8 * pMask P) =? b mod 2 ^ (8 * pMask P))) (grrMasks P lR lS y)) (grrMasks P lR lS x)) S) R = true ->
  noSharedRow P lR lS R S.
Proof.
  intros H x y m Hx%elem_of_list_In Hy%elem_of_list_In (a & Ha%elem_of_list_In & ->) (b & Hb%elem_of_list_In & E). rewrite forallb_forall in H. specialize (H x Hx).
  rewrite forallb_forall in H. specialize (H y Hy). apply orb_true_iff in H as [H|H]; [by apply N.eqb_eq|].
  rewrite forallb_forall in H. specialize (H a Ha). rewrite forallb_forall in H. specialize (H b Hb). by rewrite E, N.eqb_refl in H.
Qed.
(** Loads 2: the common item is in rows 2 and 3 in the first case, in rows 0 and 1 in the second. *)
Example C157_example : let P := exP false 2 3 3 1 in let ls := [2; 2; 2]%nat in
  paramsOk P [1; 9] /\ paramsOk P [1; 20] /\ loadsOk P [1; 9] ls /\ loadsOk P [1; 20] ls /\ noSharedRow P ls ls [1; 28] ([1; 9] ++ [1; 20]) /\
  grrRandOk P ls ls (exGrr 2 1 ls ls 0 (fun _ => 0)) /\
  map (fun b => rowsBelow P ls [1; 9] b) [1; 2]%nat = [2; 4]%nat /\ map (fun b => rowsBelow P ls [1; 20] b) [1; 2]%nat = [0; 2]%nat.
Proof.
  split; [by apply paramsOkb_ok; vm_compute|]. split; [by apply paramsOkb_ok; vm_compute|]. split; [by apply loadsOkb_ok; vm_compute|]. split; [by apply loadsOkb_ok; vm_compute|].
  split; [apply shared_check; by vm_compute|]. split; [exact (exGrr_ok false 2 3 3 1 [2; 2; 2]%nat [2; 2; 2]%nat 0 _)|]. by vm_compute.
Qed.
