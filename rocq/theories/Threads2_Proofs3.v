(** Order of events in DKT, and runs with sets of unequal size. *)
From stdpp Require Import sorting sets.
From Verif Require Import Base Partition_Model Sched_Model Sched_Spec Sched_Proofs Sched_Proofs2 Sched_Proofs3 Threads_Model Threads_Proofs Threads_Proofs2 Threads_Proofs4 Threads_Proofs5 Threads_Proofs6 Threads2_Model Threads2_Proofs2.

Lemma gets_no q j l e : receives e \/ e ∉ gets q j l.
Proof. destruct e; [right|left|right|right]; try (intros H; by apply gets_elem in H as (? & ? & ? & _)). by do 3 eexists. Qed.
Lemma act_gets a q j l : Act a ∉ gets q j l.
Proof. intros H. by apply gets_elem in H as (? & ? & ? & _). Qed.
Lemma act_sends a q l : Act a ∉ sends q l.
Proof. intros H. by apply sends_elem in H as (? & ?). Qed.
Lemma snd_gets q' k q j l : Snd q' k ∉ gets q j l.
Proof. intros H. by apply gets_elem in H as (? & ? & ? & _). Qed.
Lemma bar_sends p b k t d l : Snd (Barrier p b) k ∉ sends (Chan t d) l.
Proof. intros H. by apply sends_elem in H as (? & ?). Qed.
Ltac nope := repeat match goal with
  | H : _ ∈ [] |- _ => by apply elem_of_nil in H
  | H : _ ∈ _ ++ _ |- _ => apply elem_of_app in H as [H|H]
  | H : _ ∈ _ :: _ |- _ => apply elem_of_cons in H as [H|H]; [try done|]
  | H : Act _ ∈ gets _ _ _ |- _ => by apply act_gets in H
  | H : Act _ ∈ sends _ _ |- _ => by apply act_sends in H
  | H : Snd _ _ ∈ gets _ _ _ |- _ => by apply snd_gets in H
  | H : Snd (Barrier _ _) _ ∈ sends (Chan _ _) _ |- _ => by apply bar_sends in H
  end.

Section dkt.
Variable P : dkt.
Local Notation T := (kT P).
Local Notation n := (kNR P).
Definition kBefore (t : nat) : list ev :=
  let steps := kSteps P n t in
  kHead P t ++ sends (Chan t false) (map (fun k => k * (3 * kPt P)) steps) ++ kSigma P t ++ sends (Chan t false) (map (fun k => k * kNum P) steps) ++
  kSigma2A P t ++ gets (Chan t true) (first t) (map (fun k => k * kPt P) steps) ++ kSigma2 P t (first t + length steps) ++
  gets (Chan t true) (first t + length steps + first t) (map (fun k => k * kPt P) steps).
Definition kAfter (t : nat) : list ev :=
  let steps := kSteps P n t in gets (Chan t true) (first t + length steps + first t + length steps) (map (fun k => k * 16) (kMaskSteps P n t)) ++ kEnd false P t.
Lemma k_split t : kReceiver P t = kBefore t ++ kMerge P t ++ Act LookedUp :: kAfter t.
Proof. unfold kReceiver, kBefore, kAfter. rewrite <- !app_assoc. done. Qed.
Lemma before_act t a : Act a ∉ kBefore t.
Proof. unfold kBefore, kHead, kSigma, kSigma2A, kSigma2. intros H. destruct t; nope. Qed.
Lemma after_act t a : Act a ∉ kAfter t.
Proof. unfold kAfter, kEnd, done. intros H. destruct t; nope. Qed.
Lemma before_bar t b k : b = mergedB \/ b = inputHashB -> Snd (Barrier false b) k ∉ kBefore t.
Proof. unfold kBefore, kHead, kSigma, kSigma2A, kSigma2. intros Hb H. destruct t; nope; destruct Hb; simplify_eq. Qed.
Lemma after_bar t b k : b = mergedB \/ b = inputHashB -> Snd (Barrier false b) k ∉ kAfter t.
Proof. unfold kAfter, kEnd, done. intros Hb H. destruct t; nope; destruct Hb; simplify_eq. Qed.

Lemma dkt_lookups adv : peer false adv -> always_before (map (kReceiver P) (seq 0 T) ++ adv) (among T isInsert) (among T isLookup).
Proof.
  intros Hadv. apply before_intro. intros tr s v f rest u e rest' Hex Hv [Hvt Hf] Hu Hin [Hut He]. cbn in Hvt, Hf, Hut, He. unfold isLookup in Hf. unfold isInsert in He. subst f e.
  set (scripts := map (kReceiver P) (seq 0 T) ++ adv) in *.
  assert (forall w, (w < T)%nat -> scripts !! w = Some (kReceiver P w)) as Hsc by (intros w Hw; by apply map_lookup).
  destruct (exec_thr _ _ _ _ _ Hex (Hsc v Hvt)) as (r & Hr & Ev). rewrite Hv in Hr. injection Hr as <-.
  destruct (exec_thr _ _ _ _ _ Hex (Hsc u Hut)) as (r & Hr & Eu). rewrite Hu in Hr. injection Hr as <-.
  (* only thread 0 inserts *)
  destruct u as [|u].
  2: { assert (Act Inserted ∈ kReceiver P (S u)) as H by (rewrite Eu; apply elem_of_app; by right). rewrite k_split in H. unfold kMerge in H. nope; [by apply before_act in H|by apply after_act in H]. }
  rewrite k_split in Ev. rewrite app_assoc in Ev. symmetry in Ev. apply once in Ev as [Ev Erest].
  2: { intros H. apply elem_of_app in H as [H|H]; [by apply before_act in H|]. unfold kMerge in H. destruct v; nope. }
  2: { apply after_act. }
  destruct v as [|v].
  - rewrite Hu in Hv. injection Hv as ->. apply elem_of_cons in Hin as [Hin|Hin]; [done|]. rewrite Erest in Hin. by apply after_act in Hin.
  - assert (Wai (Barrier false mergedB) 1 ∈ thr (S v) tr) as Hw by (rewrite Ev; apply elem_of_app; right; unfold kMerge; set_solver).
    apply (executed _ _ _ _ _ Hex) in Hw. cbn in Hw. rewrite (sent_by _ _ _ _ 0%nat _ Hex (Hsc _ Hut)) in Hw.
    2: { intros w lw Hw' Hne. apply map_lookup_inv in Hw' as [[Hwt ->]|[_ Hw']].
         - apply sendsOf_none. intros k H. rewrite k_split in H. unfold kMerge in H. destruct w; [done|]. nope; [apply before_bar in H; [done|by left]|apply after_bar in H; [done|by left]].
         - unfold peer in Hadv. rewrite Forall_forall in Hadv. apply sendsOf_none, Hadv. by eapply elem_of_list_lookup_2. }
    destruct (elem_sends _ _ 0 Hw) as [k Hk]. rewrite k_split in Eu. cbn [kMerge] in Eu. symmetry in Eu.
    change ([Act Hashed; Wai (Barrier false inputHashB) (T - 1); Act Inserted; Snd (Barrier false mergedB) 0] ++ Act LookedUp :: kAfter 0)
      with ([Act Hashed; Wai (Barrier false inputHashB) (T - 1); Act Inserted] ++ [Snd (Barrier false mergedB) 0] ++ Act LookedUp :: kAfter 0) in Eu. rewrite app_assoc in Eu.
    apply (beyond _ _ _ _ _ Eu) in Hk as (a' & _ & Epost).
    + assert (Act Inserted ∈ a' ++ rest') as H by (apply elem_of_app; by right). rewrite <- Epost in H. nope. by apply after_act in H.
    + intros H. apply elem_of_app in H as [H|H]; [apply before_bar in H; [done|by left]|nope].
Qed.
Lemma dkt_hashed adv : peer false adv -> always_before (map (kReceiver P) (seq 0 T) ++ adv) (among T isHash) (among T isInsert).
Proof.
  intros Hadv. apply before_intro. intros tr s v f rest u e rest' Hex Hv [Hvt Hf] Hu Hin [Hut He]. cbn in Hvt, Hf, Hut, He. unfold isHash in He. unfold isInsert in Hf. subst f e.
  set (scripts := map (kReceiver P) (seq 0 T) ++ adv) in *.
  assert (forall w, (w < T)%nat -> scripts !! w = Some (kReceiver P w)) as Hsc by (intros w Hw; by apply map_lookup).
  destruct (exec_thr _ _ _ _ _ Hex (Hsc v Hvt)) as (r & Hr & Ev). rewrite Hv in Hr. injection Hr as <-.
  destruct (exec_thr _ _ _ _ _ Hex (Hsc u Hut)) as (r & Hr & Eu). rewrite Hu in Hr. injection Hr as <-.
  destruct v as [|v].
  2: { assert (Act Inserted ∈ kReceiver P (S v)) as H by (rewrite Ev; set_solver). rewrite k_split in H. unfold kMerge in H. nope; [by apply before_act in H|by apply after_act in H]. }
  rewrite k_split in Ev. cbn [kMerge] in Ev.
  change ([Act Hashed; Wai (Barrier false inputHashB) (T - 1); Act Inserted; Snd (Barrier false mergedB) 0] ++ Act LookedUp :: kAfter 0)
    with ([Act Hashed; Wai (Barrier false inputHashB) (T - 1)] ++ Act Inserted :: Snd (Barrier false mergedB) 0 :: Act LookedUp :: kAfter 0) in Ev. rewrite app_assoc in Ev.
  symmetry in Ev. apply once in Ev as [Ev Erest].
  2: { intros H. apply elem_of_app in H as [H|H]; [by apply before_act in H|nope]. }
  2: { intros H. nope. by apply after_act in H. }
  destruct u as [|u].
  - rewrite Hu in Hv. injection Hv as ->. apply elem_of_cons in Hin as [Hin|Hin]; [done|]. rewrite Erest in Hin. nope. by apply after_act in Hin.
  - assert (Wai (Barrier false inputHashB) (T - 1) ∈ thr 0 tr) as Hw by (rewrite Ev; set_solver). apply (executed _ _ _ _ _ Hex) in Hw. cbn in Hw.
    assert (length (concat (map (sendsOf (Barrier false inputHashB)) scripts)) = (T - 1)%nat) as Hcount.
    { unfold scripts. rewrite map_app, concat_app, (arrivals_peer false inputHashB adv Hadv), app_nil_r. apply (arrivals_but _ _ 0); [|lia].
      intros t. rewrite k_split, sendsOf_app. rewrite (sendsOf_none _ (kBefore t)) by (intros k; apply before_bar; by right).
      rewrite sendsOf_app, sendsOf_act, (sendsOf_none _ (kAfter t)) by (intros k; apply after_bar; by right). by destruct t. }
    pose proof (all_arrived _ _ _ _ _ Hcount Hex Hw (S u) rest' Hu) as Hnone. rewrite k_split in Eu. symmetry in Eu. cbn [kMerge] in Eu.
    change ([Act Hashed; Snd (Barrier false inputHashB) 0; Wai (Barrier false mergedB) 1] ++ Act LookedUp :: kAfter (S u))
      with ([Act Hashed] ++ Snd (Barrier false inputHashB) 0 :: Wai (Barrier false mergedB) 1 :: Act LookedUp :: kAfter (S u)) in Eu. rewrite app_assoc in Eu.
    apply left_over in Eu as (a' & _ & Epost); [|by apply no_sends]. assert (Act Hashed ∈ a' ++ rest') as Hbad by set_solver. rewrite <- Epost in Hbad. nope. by apply after_act in Hbad.
Qed.
(** Each sender thread sends nothing of its range before it has all proofs of it. *)
Lemma dkt_own adv t : (t < T)%nat -> always_before (map (kSender P) (seq 0 T) ++ adv) (fun e => e.1 = t /\ receives e.2) (fun e => e.1 = t /\ isMask e.2).
Proof.
  intros Ht. apply before_intro. intros tr s v f rest u e rest' Hex Hv [Hvt Hf] Hu Hin [Hut He]. cbn in Hvt, Hf, Hut, He. unfold isMask in Hf. subst f u v.
  rewrite Hu in Hv. injection Hv as ->.
  destruct (exec_thr _ _ _ _ _ Hex (map_lookup (kSender P) T adv t Ht)) as (r & Hr & Ev). rewrite Hu in Hr. injection Hr as <-.
  unfold kSender in Ev. set (X := kPch P t) in *. set (Y := kAnswers _ _ _ _) in *. set (Z := kProof _ _ _) in *. set (G := gets _ _ _) in *.
  set (A := sends _ _ ++ _) in *. rewrite !app_assoc in Ev. symmetry in Ev. apply once in Ev as [_ Erest].
  - destruct He as (q & j & k & ->). apply elem_of_cons in Hin as [Hin|Hin]; [done|]. rewrite Erest in Hin. unfold A, kEnd, done in Hin.
    repeat (apply elem_of_app in Hin as [Hin|Hin]; [by apply sends_elem in Hin as (? & ?)|]). destruct t; nope.
  - unfold X, Y, Z, G, kPch, kProof. intros H. destruct t; nope; by apply answers_elem in H as [(? & ? & ? & _)|(? & ?)].
  - unfold A, kEnd, done. intros H. destruct t; nope.
Qed.
End dkt.

(** Sets of unequal size: a message of the wrong size is received. *)
Definition eW : ecdh := mkEcdh 3 2 33 1.
Lemma ecdh_wrong : exists tr s, exec (start (ecdhScripts eW)) tr s /\ wrongSize s.
Proof.
  destruct (runs (start (ecdhScripts eW)) [] [0; 1]%nat) as [[tr s]|] eqn:E; [|by vm_compute in E].
  exists tr, s. split; [by eapply runs_exec; [constructor|exact E]|]. vm_compute in E. injection E as <- <-.
  exists 0%nat, (Chan 0 false), 0%nat, 99, 66. eexists. split; [reflexivity|]. split; [reflexivity|]. done.
Qed.
Definition kW : dkt := mkDkt 3 2 33 32 1.
Lemma dkt_wrong : exists tr s, exec (start (dktScripts kW)) tr s /\ wrongSize s.
Proof.
  destruct (runs (start (dktScripts kW)) [] [1; 0; 0; 0; 0; 1]%nat) as [[tr s]|] eqn:E; [|by vm_compute in E].
  exists tr, s. split; [by eapply runs_exec; [constructor|exact E]|]. vm_compute in E. injection E as <- <-.
  exists 0%nat, (Chan 0 false), 1%nat, 297, 198. eexists. split; [reflexivity|]. split; [reflexivity|]. done.
Qed.
(** DKT with two sender threads: the first one sends its masks although the second one waits for its last proofs. *)
Definition kW2 : dkt := mkDkt 2 2 33 32 2.
Lemma dkt_early : ~ always_before (dktScripts kW2) (among 2 isCheck) (among 2 isMask).
Proof.
  intros H.
  destruct (runs (start (dktScripts kW2)) [] [2; 2; 3; 3; 2; 2; 2; 2; 1; 0; 0; 0; 0; 0; 0; 1; 1; 1; 1; 0; 0; 0; 0; 0; 0; 1; 3; 3; 1]%nat) as [[tr s]|] eqn:E; [|by vm_compute in E].
  assert (exec (start (dktScripts kW2)) tr s) as He by (by eapply runs_exec; [constructor|exact E]).
  vm_compute in E. injection E as <- <-.
  specialize (H _ _ 28%nat 24%nat (1%nat, Get (Chan 1 false) 1 32) (0%nat, Act MasksSent) He eq_refl). cbn in H.
  assert (28 < 24)%nat; [|lia]. apply H; [split; [cbn; lia|left; by do 3 eexists]|done|split; [cbn; lia|done]].
Qed.
