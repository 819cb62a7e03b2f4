(** Proofs about the masks of DCW and RR16 of items outside the receiver's set. *)
From Verif Require Import Base MaskHide_Spec MaskHide_Proofs Dcw_Model Dcw_Spec Dcw_Proofs.

Lemma setAll_other ps : forall bf p, p ∉ ps -> setAll ps bf !! p = bf !! p.
Proof.
  induction ps as [|q ps IH]; intros bf p Hp; [done|]. apply not_elem_of_cons in Hp as [Hp1 Hp2]. cbn. change (foldl _ _ ps) with (setAll ps (<[q:=true]> bf)). rewrite IH by done.
  by rewrite list_lookup_insert_ne.
Qed.

Lemma Done_inj {A} (a b : A) : Done a = Done b -> a = b.
Proof. congruence. Qed.

Section dcw.
Context (aes : N -> N -> N) (prng : N -> nat -> N) (r : dcwReceiver) (R : list N).
Notation m := (bfBits (drN r)).
Notation pos := (positions aes prng (drSeed r) (bfBits (drN r))).
Context (Hn : (0 < drN r)%nat) (HM : length (drMsgs r) = m) (HC : length (drChoices r) = m).

Lemma corr_outside corr mp mk p : recvFirst aes prng r R = Done (corr, mp, mk) -> (p < m)%nat -> (forall x, x ∈ R -> p ∉ pos x) ->
  length corr = m /\ exists c, corr !! p = Some c /\ drChoices r !! p = Some c.
Proof using Hn HM HC.
  intros E Hp Ho. unfold recvFirst in E. destruct (negb _); [done|]. destruct (encodeAll _ _ _ _ _ _ _ _ _) as [[[bf mp'] mk']| | |] eqn:Ee; [|done..].
  assert (length (replicate m false) = m) as Hr by apply replicate_length. assert (0 < m)%nat as Hm by (unfold bfBits; lia).
  pose proof (encodeAll_Done aes prng (drSeed r) (drMsgs r) m R 0 (replicate m false) [] [] _ Hm HM Hr (NoDup_nil_2 : NoDup ([] : list (N * nat)).*1) Ee) as Hz.
  pose proof (encodeAll_spec aes prng (drSeed r) (drMsgs r) m R (replicate m false) [] Hm HM Hr Hz NoDup_nil_2) as Hs. cbn [length imap rev map app] in Hs.
  case_bool_decide; [|destruct Hs as [? Hs]; rewrite Ee in Hs; done]. rewrite Ee in Hs. injection Hs as -> _ _. injection E as <- _ _.
  assert (setAll (concat (map pos R)) (replicate m false) !! p = Some false) as Hb.
  { rewrite setAll_other; [by apply lookup_replicate_2|]. intros Hin. apply elem_of_concat in Hin as (l & Hl & Hin). apply elem_of_list_fmap in Hin as (x & -> & Hx). by apply (Ho x). }
  split; [rewrite zip_with_length, setAll_length, Hr, HC; lia|]. destruct (lookup_lt_is_Some_2 (drChoices r) p) as [c Hc]; [lia|]. exists c. split; [|done]. rewrite lookup_zip_with, Hb, Hc. cbn. f_equal. by destruct c.
Qed.
Lemma corr_length corr mp mk : recvFirst aes prng r R = Done (corr, mp, mk) -> length corr = m.
Proof using Hn HM HC.
  intros E. unfold recvFirst in E. destruct (negb _); [done|]. destruct (encodeAll _ _ _ _ _ _ _ _ _) as [[[bf mp'] mk']| | |] eqn:Ee; [|done..].
  assert (length (replicate m false) = m) as Hr by apply replicate_length. assert (0 < m)%nat as Hm by (unfold bfBits; lia).
  pose proof (encodeAll_Done aes prng (drSeed r) (drMsgs r) m R 0 (replicate m false) [] [] _ Hm HM Hr (NoDup_nil_2 : NoDup ([] : list (N * nat)).*1) Ee) as Hz.
  pose proof (encodeAll_spec aes prng (drSeed r) (drMsgs r) m R (replicate m false) [] Hm HM Hr Hz NoDup_nil_2) as Hs. cbn [length imap rev map app] in Hs.
  case_bool_decide; [|destruct Hs as [? Hs]; rewrite Ee in Hs; done]. rewrite Ee in Hs. injection Hs as -> _ _. injection E as <- _ _.
  rewrite zip_with_length, setAll_length, Hr, HC. lia.
Qed.

Lemma corr_inside corr mp mk p : recvFirst aes prng r R = Done (corr, mp, mk) -> (p < m)%nat -> (exists x, x ∈ R /\ p ∈ pos x) ->
  exists c, corr !! p = Some (negb c) /\ drChoices r !! p = Some c.
Proof using Hn HM HC.
  intros E Hp Ho. unfold recvFirst in E. destruct (negb _); [done|]. destruct (encodeAll _ _ _ _ _ _ _ _ _) as [[[bf mp'] mk']| | |] eqn:Ee; [|done..].
  assert (length (replicate m false) = m) as Hr by apply replicate_length. assert (0 < m)%nat as Hm by (unfold bfBits; lia).
  pose proof (encodeAll_Done aes prng (drSeed r) (drMsgs r) m R 0 (replicate m false) [] [] _ Hm HM Hr (NoDup_nil_2 : NoDup ([] : list (N * nat)).*1) Ee) as Hz.
  pose proof (encodeAll_spec aes prng (drSeed r) (drMsgs r) m R (replicate m false) [] Hm HM Hr Hz NoDup_nil_2) as Hs. cbn [length imap rev map app] in Hs.
  case_bool_decide; [|destruct Hs as [? Hs]; rewrite Ee in Hs; done]. rewrite Ee in Hs. injection Hs as -> _ _. injection E as <- _ _.
  assert (setAll (concat (map pos R)) (replicate m false) !! p = Some true) as Hb.
  { apply setAll_in; [|lia]. destruct Ho as (x & Hx & Hin). apply elem_of_concat. exists (pos x). split; [done|]. by apply (elem_of_list_fmap_1 pos). }
  destruct (lookup_lt_is_Some_2 (drChoices r) p) as [c Hc]; [lia|]. exists c. split; [|done]. rewrite lookup_zip_with, Hb, Hc. cbn. by destruct c.
Qed.

Lemma masks_eq s corr xs : dsN s = drN r -> dsSeed s = drSeed r -> length (dsMsgs s) = m -> length corr = m -> length xs = drN r ->
  senderMasks aes prng s xs corr = Done (map (fun y => xorOf (picked corr (dsMsgs s)) (pos y)) xs).
Proof using Hn HM HC.
  intros Hs1 Hs2 Hs3 Hcl Hx. unfold senderMasks. rewrite Hs1, Hs2, Hx, Nat.eqb_refl. cbn [negb].
  rewrite (mapM_total _ (fun y => xorOf (picked corr (dsMsgs s)) (pos y))); [done|]. intros y _. rewrite (maskItem_eq aes prng).
  - by rewrite N.lxor_0_l.
  - intros p Hp. rewrite Hs3. eapply positions_lt; [|exact Hp]. unfold bfBits. lia.
  - lia.
Qed.

Lemma dcw_masks s corr mp mk K U ps vs : recvFirst aes prng r R = Done (corr, mp, mk) ->
  dsN s = drN r -> dsSeed s = drSeed r -> length (dsMsgs s) = m -> length (K ++ U) = drN r -> (forall x, x ∈ K -> x ∈ R) ->
  freshPositions pos (fun p => exists x, x ∈ R /\ p ∈ pos x) U ps -> length vs = length U ->
  exists ks xs, length ks = length K /\ length xs = length ps /\
    (Forall (fun q => isBlock q.1 /\ isBlock q.2) (dsMsgs s) -> Forall isBlock vs -> Forall isBlock xs) /\
    forall xs', length xs' = length ps -> let s' := mkDcwSender (dsN s) (dsSeed s) (putOther (drChoices r) ps xs' (dsMsgs s)) in
      chosen (drChoices r) (dsMsgs s') = chosen (drChoices r) (dsMsgs s) /\
      (exists us, senderMasks aes prng s' (K ++ U) corr = Done (ks ++ us) /\ length us = length U) /\
      (senderMasks aes prng s' (K ++ U) corr = Done (ks ++ vs) <-> xs' = xs).
Proof using Hn HM HC.
  intros E Hs1 Hs2 Hs3 Hlen HK Hf Hv. pose proof (corr_length corr mp mk E) as Hcl. assert (0 < m)%nat as Hm by (unfold bfBits; lia).
  assert (forall p, p ∈ ps -> (p < m)%nat /\ exists c, corr !! p = Some c /\ drChoices r !! p = Some c) as Hps.
  { intros p Hp. apply elem_of_list_lookup in Hp as [i Hi]. destruct Hf as [Hlf Hf]. destruct (lookup_lt_is_Some_2 U i) as [y Hy]; [apply lookup_lt_Some in Hi; lia|].
    destruct (Hf i p y Hi Hy) as (H1 & H2 & _). assert (p < m)%nat as Hpm by (eapply positions_lt; [done|by apply odd_in]). split; [done|].
    eapply corr_outside; [exact E|done|]. intros x Hx Hin. apply H2. by exists x. }
  assert (length (picked corr (dsMsgs s)) = m) as Hpl by (unfold picked; rewrite zip_with_length; lia).
  assert (Forall (fun p => (p < length (picked corr (dsMsgs s)))%nat) ps) as Hl. { apply Forall_forall. intros p Hp. rewrite Hpl. by apply Hps. }
  destruct (masks_uniform pos _ U ps (picked corr (dsMsgs s)) vs Hf Hl Hv) as (xs & Hxs & Hb & Hu).
  exists (map (fun y => xorOf (picked corr (dsMsgs s)) (pos y)) K), xs. split; [by rewrite map_length|]. split; [done|]. split.
  { intros B1 B2. apply Hb; [|done]. apply Forall_lookup. intros i v Hi. unfold picked in Hi. rewrite lookup_zip_with in Hi. destruct (dsMsgs s !! i) as [q|] eqn:Eq; [|done].
    destruct (corr !! i) as [c|]; [|done]. injection Hi as <-. rewrite Forall_lookup in B1. destruct (B1 i q Eq). by destruct c. }
  intros xs' Hx' s'. split; [apply chosen_put|].
  assert (senderMasks aes prng s' (K ++ U) corr = Done (map (fun y => xorOf (picked corr (dsMsgs s)) (pos y)) K ++ map (fun y => xorOf (putAt ps xs' (picked corr (dsMsgs s))) (pos y)) U)) as Es.
  { rewrite masks_eq; [|done|done|unfold s'; cbn [dsMsgs]; by rewrite putOther_length|done|done]. f_equal. rewrite map_app. unfold s'. cbn [dsMsgs]. rewrite picked_put by (intros p Hp; by apply Hps). f_equal.
    apply map_ext_in. intros y Hy%elem_of_list_In. apply xor_putAt_none; [done|]. intros p Hp. apply not_odd. intros Hin.
    apply elem_of_list_lookup in Hp as [i Hi]. destruct Hf as [Hlf Hf]. destruct (lookup_lt_is_Some_2 U i) as [z Hz]; [apply lookup_lt_Some in Hi; lia|].
    destruct (Hf i p z Hi Hz) as (_ & H2 & _). apply H2. exists y. split; [by apply HK|done]. }
  rewrite Es. split; [eexists; split; [done|by rewrite map_length]|]. rewrite <- Hu by done. split.
  - intros E'. apply Done_inj, app_inv_head in E'. exact E'.
  - by intros ->.
Qed.
(** The mask of an item all of whose positions are in the filter is determined by what the receiver has. *)
Lemma dcw_known s s' corr mp mk S : recvFirst aes prng r R = Done (corr, mp, mk) -> length S = drN r ->
  dsN s = drN r -> dsSeed s = drSeed r -> length (dsMsgs s) = m -> dsN s' = drN r -> dsSeed s' = drSeed r -> length (dsMsgs s') = m ->
  chosen (drChoices r) (dsMsgs s) = chosen (drChoices r) (dsMsgs s') ->
  exists us us', senderMasks aes prng s S corr = Done us /\ senderMasks aes prng s' S corr = Done us' /\
    forall i y, S !! i = Some y -> (forall p, p ∈ pos y -> exists x, x ∈ R /\ p ∈ pos x) -> us !! i = us' !! i.
Proof using Hn HM HC.
  intros E HS H1 H2 H3 H1' H2' H3' Hc. pose proof (corr_length corr mp mk E) as Hcl. rewrite (masks_eq s corr S), (masks_eq s' corr S) by done.
  eexists _, _. split; [done|]. split; [done|]. intros i y Hy Hin. rewrite !list_lookup_fmap, Hy. cbn [fmap option_fmap option_map]. apply (f_equal Some).
  assert (forall p, p ∈ pos y -> picked corr (dsMsgs s) !! p = picked corr (dsMsgs s') !! p) as Hp.
  { intros p Hp. assert (p < m)%nat as Hpm by (eapply positions_lt; [|exact Hp]; unfold bfBits; lia). destruct (corr_inside corr mp mk p E Hpm (Hin p Hp)) as (c & Ec & Ech).
    assert (chosen (drChoices r) (dsMsgs s) !! p = chosen (drChoices r) (dsMsgs s') !! p) as Hcc by by rewrite Hc. unfold chosen in Hcc. unfold picked. rewrite !lookup_zip_with in *.
    rewrite Ec. rewrite Ech in Hcc. clear -Hcc. destruct (dsMsgs s !! p) as [[a b]|], (dsMsgs s' !! p) as [[a' b']|]; [|by destruct c..|done]. destruct c; exact Hcc. }
  exact (xorAt_ext _ _ _ Hp).
Qed.
End dcw.

From Verif Require Import Rr16_Model Rr16_Spec Rr16_Proofs.

Section rr16.
Context (aes : N -> N -> N) (ro : N -> N -> N) (seed : N) (m nh : nat) (perm : list N).
Notation pos := (fun y => map (fun p => N.to_nat (default 0 (perm !! N.to_nat p))) (filterPos aes ro seed (N.of_nat m) nh y)).

Lemma xorPerm_xorOf msgs ps : xorPerm (sendMsg msgs) perm ps = xorOf (map snd msgs) (map (fun p => N.to_nat (default 0 (perm !! N.to_nat p))) ps).
Proof using.
  induction ps as [|p ps IH]; [done|]. cbn [xorPerm foldr map xorOf]. change (foldr _ 0 ps) with (xorPerm (sendMsg msgs) perm ps) at 1. rewrite IH. f_equal.
  unfold sendMsg. rewrite list_lookup_fmap. by destruct (msgs !! _).
Qed.
Lemma sends_eq msgs xs : (0 < m)%nat -> length perm = m -> (forall i, i ∈ perm -> (N.to_nat i < length msgs)%nat) ->
  mapM (fun y => sendMask msgs perm (filterPos aes ro seed (N.of_nat m) nh y) 0) xs = Some (map (fun y => xorOf (map snd msgs) (pos y)) xs).
Proof using.
  intros Hm Hl Hi. apply Dcw_Proofs.mapM_total. intros y _. rewrite sendMask_eq; [|intros p Hp|done].
  - rewrite N.lxor_0_l. f_equal. apply xorPerm_xorOf.
  - unfold filterPos in Hp. apply elem_of_list_fmap in Hp as (j & -> & _). pose proof (N.mod_lt (word aes ro seed y j) (N.of_nat m)). lia.
Qed.
Lemma rr16_masks msgs (known : nat -> Prop) (K U : list N) ps vs : (0 < m)%nat -> length perm = m -> (forall i, i ∈ perm -> (N.to_nat i < length msgs)%nat) ->
  (forall x i, x ∈ K -> i ∈ pos x -> known i) -> freshPositions pos known U ps -> length vs = length U ->
  exists ks xs, length ks = length K /\ length xs = length ps /\
    (Forall (fun q => isBlock q.1 /\ isBlock q.2) msgs -> Forall isBlock vs -> Forall isBlock xs) /\
    forall xs', length xs' = length ps -> let msgs' := putSecond ps xs' msgs in
      map fst msgs' = map fst msgs /\ (forall i, known i -> msgs' !! i = msgs !! i) /\
      (exists us, mapM (fun y => sendMask msgs' perm (filterPos aes ro seed (N.of_nat m) nh y) 0) (K ++ U) = Some (ks ++ us) /\ length us = length U) /\
      (mapM (fun y => sendMask msgs' perm (filterPos aes ro seed (N.of_nat m) nh y) 0) (K ++ U) = Some (ks ++ vs) <-> xs' = xs).
Proof using.
  intros Hm Hl Hi HK Hf Hv.
  assert (forall p, p ∈ ps -> (p < length msgs)%nat /\ ¬ known p) as Hps.
  { intros p Hp. apply elem_of_list_lookup in Hp as [i Hp]. destruct Hf as [Hlf Hf]. destruct (lookup_lt_is_Some_2 U i) as [y Hy]; [apply lookup_lt_Some in Hp; lia|].
    destruct (Hf i p y Hp Hy) as (H1 & H2 & _). split; [|done]. apply odd_in, elem_of_list_fmap in H1 as (q & -> & Hq). apply Hi.
    unfold filterPos in Hq. apply elem_of_list_fmap in Hq as (j & -> & _). pose proof (N.mod_lt (word aes ro seed y j) (N.of_nat m)).
    destruct (lookup_lt_is_Some_2 perm (N.to_nat (word aes ro seed y j mod N.of_nat m))) as [v Ev]; [lia|]. rewrite Ev. by eapply elem_of_list_lookup_2. }
  assert (Forall (fun p => (p < length (map snd msgs))%nat) ps) as Hfl. { apply Forall_forall. intros p Hp. rewrite map_length. by apply Hps. }
  destruct (masks_uniform pos known U ps (map snd msgs) vs Hf Hfl Hv) as (xs & Hxs & Hb & Hu).
  exists (map (fun y => xorOf (map snd msgs) (pos y)) K), xs. split; [by rewrite map_length|]. split; [done|]. split.
  { intros B1 B2. apply Hb; [|done]. apply Forall_fmap. eapply Forall_impl; [exact B1|]. by intros q []. }
  intros xs' Hx' msgs'. split; [apply first_put|]. split.
  { intros i Hk. assert (i ∉ ps) as Hn by (intros Hin; by apply (Hps i Hin)). apply option_eq. intros q.
    assert (map fst msgs' !! i = map fst msgs !! i) as E1 by (unfold msgs'; by rewrite first_put).
    assert (map snd msgs' !! i = map snd msgs !! i) as E2 by (unfold msgs'; rewrite second_put; by apply putAt_other).
    rewrite !list_lookup_fmap in E1, E2. destruct (msgs' !! i) as [[a b]|], (msgs !! i) as [[c d]|]; cbn in E1, E2; [|done..]. injection E1 as ->. injection E2 as ->. done. }
  assert (mapM (fun y => sendMask msgs' perm (filterPos aes ro seed (N.of_nat m) nh y) 0) (K ++ U) = Some (map (fun y => xorOf (map snd msgs) (pos y)) K ++ map (fun y => xorOf (putAt ps xs' (map snd msgs)) (pos y)) U)) as Es.
  { rewrite sends_eq; [|done|done|intros i Hin; unfold msgs'; rewrite putSecond_length; by apply Hi]. f_equal. rewrite map_app. unfold msgs'. rewrite second_put. f_equal.
    apply map_ext_in. intros y Hy%elem_of_list_In. apply xor_putAt_none; [done|]. intros p Hp. apply not_odd. intros Hin. apply (Hps p Hp). by eapply HK. }
  rewrite Es. split; [eexists; split; [done|by rewrite map_length]|]. rewrite <- Hu by done. split.
  - intros E'. apply Some_inj, app_inv_head in E'. exact E'.
  - by intros ->.
Qed.
End rr16.
