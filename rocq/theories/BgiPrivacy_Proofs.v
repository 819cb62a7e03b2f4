(** One server's key does not depend on the position. *)
From Verif Require Import Base Bgi_Model Bgi_Spec Bgi_Proofs BgiPrivacy_Spec.

Definition blk (b : N) : Prop := b < 2 ^ 128.
Lemma blk_bits b : blk b <-> forall i, 128 <= i -> N.testbit b i = false.
Proof.
  split.
  - intros H i Hi. unfold blk in H. rewrite <- (N.mod_small b (2 ^ 128)) by done. by apply N.mod_pow2_bits_high.
  - intros H. assert (b = b mod 2 ^ 128) as ->; [|apply N.mod_lt; done]. apply N.bits_inj. intros i.
    destruct (N.lt_ge_cases i 128); [by rewrite N.mod_pow2_bits_low|]. rewrite N.mod_pow2_bits_high by done. by apply H.
Qed.
Lemma blk_lxor a b : blk a -> blk b -> blk (N.lxor a b).
Proof. rewrite !blk_bits. intros Ha Hb i Hi. by rewrite N.lxor_spec, Ha, Hb. Qed.
Lemma lxor_cancel a b : N.lxor a (N.lxor a b) = b.
Proof. by rewrite <- N.lxor_assoc, N.lxor_nilpotent, N.lxor_0_l. Qed.

Lemma imap_same {A} (l : list A) : imap (fun _ b => b) l = l.
Proof. induction l as [|a l IH]; [done|]. cbn. f_equal. exact IH. Qed.

Lemma imap_imap' {A B C} (f : nat -> B -> C) (g : nat -> A -> B) (l : list A) : imap f (imap g l) = imap (fun i x => f i (g i x)) l.
Proof. apply list_eq. intros i. rewrite !list_lookup_imap. by destruct (l !! i). Qed.

(** Upper bits of [a], lowest bit [t]. *)
Definition withLow (a : N) (t : bool) : N := N.lxor (N.lxor a (bit2N (lsb a))) (bit2N t).
Lemma withLow_lsb a t : lsb (withLow a t) = t.
Proof. unfold withLow. rewrite !lsb_lxor, !lsb_bit, xorb_nilpotent. by rewrite xorb_false_l. Qed.
Lemma withLow_bits a t i : N.testbit (withLow a t) i = if i =? 0 then t else N.testbit a i.
Proof.
  destruct (N.eqb_spec i 0) as [->|Hi]; [exact (withLow_lsb a t)|]. unfold withLow. rewrite !N.lxor_spec.
  assert (forall b, N.testbit (bit2N b) i = false) as H. { intros []; [|apply N.bits_0]. change (bit2N true) with (2 ^ 0). rewrite N.pow2_bits_eqb. apply N.eqb_neq. lia. }
  rewrite !H, !xorb_false_r. done.
Qed.
Lemma withLow_twice a t u : withLow (withLow a t) u = withLow a u.
Proof. apply N.bits_inj. intros i. rewrite !withLow_bits. by destruct (i =? 0). Qed.
Lemma withLow_self a : withLow a (lsb a) = a.
Proof. apply N.bits_inj. intros i. rewrite withLow_bits. by destruct (N.eqb_spec i 0) as [->|]. Qed.
Lemma withLow_blk a t : blk a -> blk (withLow a t).
Proof. rewrite !blk_bits. intros H i Hi. rewrite withLow_bits. destruct (N.eqb_spec i 0); [lia|]. by apply H. Qed.
Lemma notThree_withLow a t : notThree (withLow a t) = notThree a.
Proof.
  apply N.bits_inj. intros i. rewrite !testbit_notThree, withLow_bits. destruct (N.eqb_spec i 0) as [->|]; done.
Qed.

(** The exchange of the two sums of a level that keeps the correction word when the direction changes. *)
Definition flipY (same : bool) (y : N * N) : N * N :=
  if same then y else (withLow y.2 (negb (lsb y.1)), withLow y.1 (negb (lsb y.2))).
Lemma flipY_twice same y : flipY same (flipY same y) = y.
Proof.
  destruct same; [done|]. destruct y as [y0 y1]. unfold flipY. cbn [fst snd]. rewrite !withLow_lsb, !withLow_twice, !negb_involutive, !withLow_self. done.
Qed.
Definition cwOf (keep : bool) (y : N * N) : N :=
  N.lxor (N.lxor (notThree (if keep then y.1 else y.2)) (N.shiftl (bit2N (negb (xorb (lsb y.1) keep))) 1)) (bit2N (xorb (lsb y.2) keep)).
Lemma flipY_cw k k' y : cwOf k' (flipY (eqb k k') y) = cwOf k y.
Proof.
  destruct y as [y0 y1], k, k'; unfold flipY, cwOf; cbn [eqb fst snd]; try done; rewrite !withLow_lsb, notThree_withLow; by destruct (lsb y0), (lsb y1).
Qed.

Lemma notThree_blk b : blk (notThree b).
Proof. apply blk_bits. intros i Hi. rewrite testbit_notThree. destruct (N.ltb_spec i 128); [lia|]. by rewrite andb_false_r. Qed.
Lemma pointBlock_blk j i : blk (pointBlock j i).
Proof.
  unfold pointBlock. destruct (j / 128 =? N.of_nat i); [|done]. rewrite N.shiftl_1_l. unfold blk. apply N.pow_lt_mono_r; lia.
Qed.
Section Tape.
Context (aes : bool -> N -> N) (Ha : forall c x, blk x -> blk (aes c x)).

Definition xorOwn (s : N) (x : N * N) : N * N := (N.lxor (prg aes false (notThree s)) x.1, N.lxor (prg aes true (notThree s)) x.2).
Lemma tapeCw_eq keep s x : tapeCw aes keep s x = cwOf keep (xorOwn s x).
Proof using. done. Qed.
Lemma xorOwn_twice s x : xorOwn s (xorOwn s x) = x.
Proof using. destruct x. unfold xorOwn. cbn. by rewrite !lxor_cancel. Qed.

Definition level (k k' : bool) (s s' : N) (x : N * N) : N * N := xorOwn s' (flipY (eqb k k') (xorOwn s x)).
Lemma level_cw k k' s s' x : tapeCw aes k' s' (level k k' s s' x) = tapeCw aes k s x.
Proof using. rewrite !tapeCw_eq. unfold level. by rewrite xorOwn_twice, flipY_cw. Qed.
Lemma level_back k k' s s' x : level k' k s' s (level k k' s s' x) = x.
Proof using.
  unfold level. rewrite xorOwn_twice. assert (eqb k' k = eqb k k') as -> by (by destruct k, k'). by rewrite flipY_twice, xorOwn_twice.
Qed.

Fixpoint move (i i' s s' : N) (l : list (N * N)) : list (N * N) :=
  match l with
  | [] => []
  | x :: l' =>
      let k := N.testbit i (N.of_nat (length l')) in
      let k' := N.testbit i' (N.of_nat (length l')) in
      let cw := tapeCw aes k s x in
      level k k' s s' x :: move i i' (traverseOne aes s cw k) (traverseOne aes s' cw k') l'
  end.
Lemma move_length i i' l : forall s s', length (move i i' s s' l) = length l.
Proof using. induction l as [|x l IH]; intros s s'; cbn; [done|]. by rewrite IH. Qed.
Lemma move_cws i i' l : forall s s', (tapeCws aes i' s' (move i i' s s' l)).1 = (tapeCws aes i s l).1.
Proof using. induction l as [|x l IH]; intros s s'; cbn; [done|]. by rewrite move_length, level_cw, IH. Qed.
Lemma move_back i i' l : forall s s', move i' i s' s (move i i' s s' l) = l.
Proof using. induction l as [|x l IH]; intros s s'; cbn; [done|]. by rewrite move_length, level_back, level_cw, IH. Qed.

Lemma prg_blk c b : blk b -> blk (prg aes c b).
Proof using Ha. intros H. apply blk_lxor; [by apply Ha|done]. Qed.
Lemma xorOwn_blk s x : blk x.1 -> blk x.2 -> blk (xorOwn s x).1 /\ blk (xorOwn s x).2.
Proof using Ha. intros H1 H2. split; apply blk_lxor; try done; apply prg_blk, notThree_blk. Qed.
Lemma level_blk k k' s s' x : blk x.1 -> blk x.2 -> blk (level k k' s s' x).1 /\ blk (level k k' s s' x).2.
Proof using Ha.
  intros H1 H2. unfold level. destruct (xorOwn_blk s x H1 H2) as [Q1 Q2]. apply xorOwn_blk; destruct (eqb k k'); cbn; try done; by apply withLow_blk.
Qed.
Lemma move_blk i i' l : forall s s', Forall (fun x => blk x.1 /\ blk x.2) l -> Forall (fun x => blk x.1 /\ blk x.2) (move i i' s s' l).
Proof using Ha.
  induction l as [|x l IH]; intros s s' H; [constructor|]. apply Forall_cons in H as [[H1 H2] H]. cbn. constructor; [by apply level_blk|by apply IH].
Qed.

(** The leaf. *)
Definition moveLeaf (j j' : N) (e e' : N) (l : list N) : list N :=
  imap (fun i b => N.lxor (N.lxor (leafBlock aes e' i) (pointBlock j' i)) (N.lxor (N.lxor (leafBlock aes e i) b) (pointBlock j i))) l.
Lemma lxor_shuffle a p q : N.lxor (N.lxor a (N.lxor (N.lxor a p) q)) p = q.
Proof using.
  apply N.bits_inj. intros i. rewrite !N.lxor_spec. by destruct (N.testbit a i), (N.testbit p i), (N.testbit q i).
Qed.
Lemma moveLeaf_word j j' e e' l :
  imap (fun i b => N.lxor (N.lxor (leafBlock aes e' i) b) (pointBlock j' i)) (moveLeaf j j' e e' l) =
  imap (fun i b => N.lxor (N.lxor (leafBlock aes e i) b) (pointBlock j i)) l.
Proof using. unfold moveLeaf. rewrite imap_imap'. apply imap_ext. intros i b _. cbn. apply lxor_shuffle. Qed.
Lemma moveLeaf_back j j' e e' l : moveLeaf j' j e' e (moveLeaf j j' e e' l) = l.
Proof using.
  unfold moveLeaf. rewrite imap_imap'. transitivity (imap (fun _ b => b) l); [|apply imap_same].
  apply imap_ext. intros i b _. cbn. apply N.bits_inj. intros p. rewrite !N.lxor_spec.
  by destruct (N.testbit b p), (N.testbit (leafBlock aes e i) p), (N.testbit (leafBlock aes e' i) p), (N.testbit (pointBlock j i) p), (N.testbit (pointBlock j' i) p).
Qed.

Lemma leafBlock_blk s i : N.of_nat i < 2 ^ 128 -> blk (leafBlock aes s i).
Proof using Ha. intros Hi. apply prg_blk, blk_lxor; [apply notThree_blk|done]. Qed.
Lemma moveLeaf_blk j j' e e' l : N.of_nat (length l) < 2 ^ 128 -> Forall blk l -> Forall blk (moveLeaf j j' e e' l).
Proof using Ha.
  intros Hl H. apply Forall_lookup_2. intros i b Hb. unfold moveLeaf in Hb. rewrite list_lookup_imap in Hb.
  apply fmap_Some in Hb as (b0 & Hb & ->). pose proof (lookup_lt_Some _ _ _ Hb) as Hi. pose proof (Forall_lookup_1 _ _ _ _ H Hb) as Hb0.
  repeat match goal with |- blk (N.lxor _ _) => apply blk_lxor end; try apply pointBlock_blk; try done; apply leafBlock_blk; lia.
Qed.

Definition moveTape (gs : nat) (idx idx' s : N) (t : tape) : tape :=
  let k := idx / (N.of_nat gs * 128) in let k' := idx' / (N.of_nat gs * 128) in
  let l := move k k' s s t.1 in
  (l, moveLeaf (idx mod (N.of_nat gs * 128)) (idx' mod (N.of_nat gs * 128)) (tapeCws aes k s t.1).2 (tapeCws aes k' s l).2 t.2).
Lemma moveTape_legal depth gs idx idx' s t : N.of_nat gs < 2 ^ 64 -> legalTape depth gs t -> legalTape depth gs (moveTape gs idx idx' s t).
Proof using Ha.
  intros Hgs (H1 & H2 & H3 & H4). split; [cbn; by rewrite move_length|]. split; [unfold moveTape; cbn; unfold moveLeaf; by rewrite imap_length|].
  split; [by apply move_blk|]. apply moveLeaf_blk; [rewrite H2; transitivity (2 ^ 64); [done|by apply N.pow_lt_mono_r]|done].
Qed.
Lemma moveTape_back gs idx idx' s t : moveTape gs idx' idx s (moveTape gs idx idx' s t) = t.
Proof using. destruct t as [l g]. unfold moveTape. cbn [fst snd]. by rewrite move_back, moveLeaf_back. Qed.
Lemma moveTape_key gs idx idx' s t : keyOf aes gs idx' s (moveTape gs idx idx' s t) = keyOf aes gs idx s t.
Proof using. unfold keyOf, moveTape. cbn [fst snd]. by rewrite move_cws, moveLeaf_word. Qed.
Lemma hidden depth gs idx idx' s : N.of_nat gs < 2 ^ 64 ->
  exists f, permutesTapes depth gs f /\ forall t, keyOf aes gs idx' s (f t) = keyOf aes gs idx s t.
Proof using Ha.
  intros Hgs. exists (moveTape gs idx idx' s). split; [|by intros t; apply moveTape_key]. exists (moveTape gs idx' idx s). intros t Ht.
  split; [by apply moveTape_legal|]. split; [by apply moveTape_legal|]. split; apply moveTape_back.
Qed.
End Tape.

(** ** The keys that the client makes *)

Lemma step_cw aes keep s0 s1 cw s0' s1' : keyGenStep aes keep s0 s1 = (cw, s0', s1') ->
  tapeCw aes keep s0 (prg aes false (notThree s1), prg aes true (notThree s1)) = cw /\
  tapeCw aes keep s1 (prg aes false (notThree s0), prg aes true (notThree s0)) = cw.
Proof.
  rewrite step_eq. intros [= <- _ _]. unfold tapeCw, stepBit, stepXor. cbn [fst snd].
  rewrite (N.lxor_comm (prg aes false (notThree s1))), (N.lxor_comm (prg aes true (notThree s1))).
  destruct keep; cbn [negb]; rewrite ?xorb_true_r; done.
Qed.
Lemma loop_tape aes n : forall p s0 s1 cws e0 e1, On s0 s1 -> keyGenLoop aes n p s0 s1 = (cws, e0, e1) ->
  length cws = n /\ (pathTape aes p s0 cws).2 = e0 /\ (pathTape aes p s1 cws).2 = e1 /\
  tapeCws aes p s0 (pathTape aes p s1 cws).1 = (cws, e0) /\ tapeCws aes p s1 (pathTape aes p s0 cws).1 = (cws, e1).
Proof.
  assert (forall p l s, length (pathTape aes p s l).1 = length l) as HL.
  { intros p l. induction l as [|x l IH]; intros s; cbn; [done|]. by rewrite IH. }
  induction n as [|n IH]; intros p s0 s1 cws e0 e1 Hon E; cbn [keyGenLoop] in E; [by injection E as <- <- <-|].
  destruct (keyGenStep aes (N.testbit p (N.of_nat n)) s0 s1) as [[cw s0'] s1'] eqn:Es.
  destruct (keyGenLoop aes n p s0' s1') as [[cws' a0] a1] eqn:El. injection E as <- <- <-.
  destruct (step_on aes _ s0 s1 Hon _ _ _ Es) as (T0 & T1 & Hon'). destruct (step_cw _ _ _ _ _ _ _ Es) as [C0 C1].
  destruct (IH p s0' s1' cws' a0 a1 Hon' El) as (L & P0 & P1 & Q0 & Q1).
  cbn [length pathTape tapeCws fst snd]. rewrite !HL, L, C0, C1, T0, T1, Q0, Q1. done.
Qed.
Lemma word_tape aes gs j e0 e1 g : j < N.of_nat gs * 128 -> groupWord aes gs j e0 e1 = Some g ->
  g = imap (fun i b => N.lxor (N.lxor (leafBlock aes e0 i) b) (pointBlock j i)) (map (leafBlock aes e1) (seq 0 gs)) /\
  g = imap (fun i b => N.lxor (N.lxor (leafBlock aes e1 i) b) (pointBlock j i)) (map (leafBlock aes e0) (seq 0 gs)).
Proof.
  intros Hj. unfold groupWord.
  assert ((j mod 16 + 16 * (j / 128)) / 16 = j / 128) as -> by lia.
  assert ((j mod 16 + 16 * (j / 128)) mod 16 = j mod 16) as -> by lia.
  set (gs0 := map (fun i => N.lxor (leafBlock aes e0 i) (leafBlock aes e1 i)) _).
  assert (length gs0 = gs) as L by (unfold gs0; by rewrite map_length, seq_length).
  assert (forall i, (i < gs)%nat -> gs0 !! i = Some (N.lxor (leafBlock aes e0 i) (leafBlock aes e1 i))) as Hgs.
  { intros i Hi. by apply lookup_map_seq with (f := fun i => N.lxor (leafBlock aes e0 i) (leafBlock aes e1 i)). }
  assert (readN gs0 (j / 128) = Some (N.lxor (leafBlock aes e0 (N.to_nat (j / 128))) (leafBlock aes e1 (N.to_nat (j / 128))))) as ->
    by (apply readN_Some, Hgs; lia).
  intros (_ & ->)%writeN_Some.
  assert (forall a b, (forall i, N.lxor (leafBlock aes e0 i) (leafBlock aes e1 i) = N.lxor (leafBlock aes a i) (leafBlock aes b i)) ->
    <[N.to_nat (j / 128) := N.lxor (N.lxor (leafBlock aes e0 (N.to_nat (j / 128))) (leafBlock aes e1 (N.to_nat (j / 128))))
       (N.shiftl 1 (8 * (j mod 16) + (j mod 128) / 16))]> gs0 =
    imap (fun i b => N.lxor (N.lxor (leafBlock aes a i) b) (pointBlock j i)) (map (leafBlock aes b) (seq 0 gs))) as H.
  { intros a b Hab. apply list_eq. intros i. rewrite list_lookup_imap. destruct (decide (i < gs)%nat) as [Hi|Hi].
    - rewrite (lookup_map_seq (leafBlock aes b)) by done. cbn [fmap option_fmap option_map]. unfold pointBlock.
      destruct (N.eqb_spec (j / 128) (N.of_nat i)) as [E|E].
      + assert (N.to_nat (j / 128) = i) as -> by lia. rewrite list_lookup_insert by lia. by rewrite Hab.
      + rewrite list_lookup_insert_ne by lia. rewrite Hgs by done. by rewrite Hab, N.lxor_0_r.
    - rewrite !(lookup_ge_None_2 _ i); [done| |]; rewrite ?insert_length, ?map_length, ?seq_length; lia. }
  split; apply H; [done|]. intros i. apply N.lxor_comm.
Qed.
Lemma tapeOf_legal aes gs idx s cws : (forall c x, x < 2 ^ 128 -> aes c x < 2 ^ 128) -> N.of_nat gs < 2 ^ 64 ->
  legalTape (length cws) gs (tapeOf aes gs idx s cws).
Proof.
  intros Ha Hgs. unfold tapeOf. split; [|split; [cbn; by rewrite map_length, seq_length|split]]; cbn [fst snd].
  - generalize (idx / (N.of_nat gs * 128)). intros p. revert s. induction cws as [|x l IH]; intros s; cbn; [done|]. by rewrite IH.
  - generalize (idx / (N.of_nat gs * 128)). intros p. revert s. induction cws as [|x l IH]; intros s; cbn; constructor; [|apply IH].
    split; apply prg_blk, notThree_blk; exact Ha.
  - apply Forall_map, Forall_forall. intros i Hi%elem_of_seq. apply leafBlock_blk; [exact Ha|]. transitivity (2 ^ 64); [lia|by apply N.pow_lt_mono_r].
Qed.
Lemma keys_tape aes prng depth gs idx seed : (forall c x, x < 2 ^ 128 -> aes c x < 2 ^ 128) -> (0 < gs)%nat -> N.of_nat gs < 2 ^ 64 -> exists s0 s1 cws g,
  keyGen aes prng depth gs idx seed = Done (s0 :: cws, g, s1 :: cws, g) /\
  legalTape depth gs (tapeOf aes gs idx s0 cws) /\ legalTape depth gs (tapeOf aes gs idx s1 cws) /\
  keyOf aes gs idx s0 (tapeOf aes gs idx s1 cws) = (s0 :: cws, g) /\ keyOf aes gs idx s1 (tapeOf aes gs idx s0 cws) = (s1 :: cws, g).
Proof.
  intros Ha Hgs Hgs'. unfold keyGen. destruct (Nat.eqb_spec gs 0) as [E|_]; [lia|].
  set (L := N.of_nat gs * 128). assert (0 < L) as HL by (unfold L; lia).
  set (s1 := snd (prng seed)). set (s0 := N.lxor (N.land (fst (prng seed)) _) _).
  assert (On s0 s1) as Hon by apply root_on.
  destruct (keyGenLoop aes depth (idx / L) s0 s1) as [[cws e0] e1] eqn:El.
  destruct (loop_tape _ _ _ _ _ _ _ _ Hon El) as (Lc & P0 & P1 & Q0 & Q1).
  assert (idx mod L < N.of_nat gs * 128) as Hj by (apply N.mod_lt; lia).
  destruct (groupWord_ok aes gs (idx mod L) e0 e1 Hj) as (g & Hg & _). rewrite Hg.
  destruct (word_tape _ _ _ _ _ _ Hj Hg) as [G0 G1].
  exists s0, s1, cws, g. split; [done|]. rewrite <- Lc. split; [by apply tapeOf_legal|]. split; [by apply tapeOf_legal|]. unfold keyOf, tapeOf. fold L. cbn [fst snd]. rewrite P0, P1, Q0, Q1. cbn [fst snd].
  split; [by rewrite <- G0|by rewrite <- G1].
Qed.
