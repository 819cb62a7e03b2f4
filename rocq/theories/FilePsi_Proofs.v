From Verif Require Import Base File_Model File_Spec File_Proofs FilePsi_Model FilePsi_Spec.

Lemma chosen ro f c l : readSet ro f (chooseType c) (cDebug c) = Done l -> chooseType c <> Unspecified.
Proof. intros E X. rewrite X in E. discriminate. Qed.

(** What a party starts with. *)
Definition sets (pr : protocol) (p : nat -> N) (l : list N) (m : nat) : list N :=
  match pr with Kkrt => l | _ => l ++ pads p (length l) m end.
Definition size (pr : protocol) (n m : nat) : N := match pr with Kkrt => N.of_nat n | _ => N.of_nat (Nat.max n m) end.
Definition flagged (c : command) (pr : protocol) (differ : bool) : Prop :=
  match pr with
  | Kkrt => cKkrt c = true
  | Rr17a => cKkrt c = false /\ cRr17a c = true /\ (differ = true -> cPad c = true)
  | Ecdh => cKkrt c = false /\ cRr17a c = false /\ cEcdh c = true /\ (differ = true -> cPad c = true)
  end.

Lemma pad_done p l m ok : (length l <> m -> ok = true) -> exists t, padSmallSet p l (N.of_nat m) ok = Done (l ++ pads p (length l) m, t) /\ length (l ++ pads p (length l) m) = Nat.max (length l) m.
Proof.
  intros Ok. unfold padSmallSet, pads. destruct (N.eqb_spec (N.of_nat (length l)) (N.of_nat m)) as [E|E].
  - assert (m - length l = 0)%nat as -> by lia. rewrite app_nil_r. eexists. split; [reflexivity|lia].
  - rewrite Ok by lia. cbn [negb]. destruct (N.ltb_spec (N.of_nat (length l)) (N.of_nat m)).
    + rewrite Nat2N.id. eexists. split; [reflexivity|]. rewrite app_length, map_length, seq_length. lia.
    + assert (m - length l = 0)%nat as -> by lia. rewrite app_nil_r. eexists. split; [reflexivity|lia].
Qed.

Lemma startup_done ro p c f l m r pr mine theirs :
  readSet ro f (chooseType c) (cDebug c) = Done l -> cRole c = Some r -> (r = 0 \/ r = 1)%Z ->
  (if (r =? 0)%Z then cSenderSize c else cReceiverSize c) = mine -> (if (r =? 0)%Z then cReceiverSize c else cSenderSize c) = theirs ->
  (forall n, mine = Some n -> n = N.of_nat (length l)) -> (forall n, theirs = Some n -> n = N.of_nat m) ->
  flagged c pr (negb (length l =? m)%nat) ->
  startup ro p c f (N.of_nat m) = Some (pr, if (r =? 0)%Z then size pr (length l) m else size pr m (length l),
     if (r =? 0)%Z then size pr m (length l) else size pr (length l) m, sets pr p l m, negb (default r (cServer c) =? 0)%Z).
Proof.
  intros E Er Hr Em Et Hm Ht Hf. unfold startup. pose proof (chosen _ _ _ _ E) as Hc.
  destruct (chooseType c) eqn:Ec; [| |done].
  all: rewrite E, Er; change (default 2%Z (Some r)) with r; cbv zeta;
    assert (negb (r =? 0)%Z && negb (r =? 1)%Z = false) as -> by (destruct Hr as [-> | ->]; reflexivity);
    rewrite Em, Et;
    assert ((N.of_nat (length l) =? default (N.of_nat (length l)) mine) = true) as -> by (apply N.eqb_eq; destruct mine as [n|]; [cbn; by rewrite (Hm n eq_refl)|done]);
    assert ((N.of_nat m =? default (N.of_nat m) theirs) = true) as -> by (apply N.eqb_eq; destruct theirs as [n|]; [cbn; by rewrite (Ht n eq_refl)|done]);
    cbn [negb]; destruct pr; cbn [flagged] in Hf; cbn [size sets].
  1, 4: rewrite Hf; destruct (r =? 0)%Z; reflexivity.
  1, 3: destruct Hf as (-> & -> & Hp); destruct (pad_done p l m (cPad c)) as (t & -> & L);
    [intros X; apply Hp; by apply negb_true_iff, Nat.eqb_neq|]; cbn [orb]; rewrite L; rewrite ?(Nat.max_comm m (length l)); destruct (r =? 0)%Z; reflexivity.
  1, 2: destruct Hf as (-> & -> & -> & Hp); destruct (pad_done p l m (cPad c)) as (t & -> & L);
    [intros X; apply Hp; by apply negb_true_iff, Nat.eqb_neq|]; cbn [orb]; rewrite L; rewrite ?(Nat.max_comm m (length l)); destruct (r =? 0)%Z; reflexivity.
Qed.

Lemma filePsi_run run ro p1 p2 c1 c2 f1 f2 S R pr :
  readSet ro f1 (chooseType c1) (cDebug c1) = Done S -> readSet ro f2 (chooseType c2) (cDebug c2) = Done R -> partners c1 c2 (length S) (length R) ->
  flagged c1 pr (negb (length S =? length R)%nat) -> flagged c2 pr (negb (length S =? length R)%nat) ->
  filePsi run ro p1 p2 c1 c2 f1 f2 =
  match run pr (size pr (length S) (length R), size pr (length R) (length S)) (size pr (length S) (length R), size pr (length R) (length S)) (sets pr p1 S (length R)) (sets pr p2 R (length S)) with
  | Done l => Done (writeOutput (chooseType c2) l)
  | Thrown _ => Thrown []
  | UB => UB
  | OutOfFuel => OutOfFuel
  end.
Proof.
  intros E1 E2 (R1 & R2 & V & Z1 & Z2) F1 F2. unfold filePsi, announced. rewrite E1, E2.
  rewrite (startup_done ro p1 c1 f1 S (length R) 0 pr _ _ E1 R1 ltac:(by left) eq_refl eq_refl (fun n H => Z1 n (or_introl H)) (fun n H => Z2 n (or_introl H)) F1).
  rewrite Nat.eqb_sym in F2.
  rewrite (startup_done ro p2 c2 f2 R (length S) 1 pr _ _ E2 R2 ltac:(by right) eq_refl eq_refl (fun n H => Z2 n (or_intror H)) (fun n H => Z1 n (or_intror H)) F2).
  cbn [Z.eqb].
  assert (Bool.eqb (negb (default 0%Z (cServer c1) =? 0)%Z) (negb (default 1%Z (cServer c2) =? 0)%Z) = false) as ->.
  { destruct (Z.eqb_spec (default 0%Z (cServer c1)) 0), (Z.eqb_spec (default 1%Z (cServer c2)) 0); try done; tauto. }
  destruct pr; reflexivity.
Qed.

Lemma written ft l : ft <> Unspecified -> Forall (fun i => i < 2 ^ 64) l -> positionsFile ft (writeOutput ft l) l.
Proof.
  intros U F. destruct ft; [|exact (writeOutput_csv l F)|done].
  split; [|exact F]. unfold writeOutput. f_equal.
Qed.
