(** Proofs about the masks, permutations and shares of the PIR-PSI model. *)
From Verif Require Import Base Bgi_Model Rr17_Proofs Drrn_Model Drrn_Spec Drrn_Proofs.

(** ** The masks of an item are permuted among themselves *)

Lemma swapPos_mid A M Z a b x y : M !! a = Some x -> M !! b = Some y ->
  swapPos (A ++ M ++ Z) (length A + a) (length A + b) = Some (A ++ <[b := x]> (<[a := y]> M) ++ Z).
Proof.
  intros Ha Hb. pose proof (lookup_lt_Some _ _ _ Ha) as La. pose proof (lookup_lt_Some _ _ _ Hb) as Lb. unfold swapPos.
  assert (forall k, (k < length M)%nat -> (A ++ M ++ Z) !! (length A + k)%nat = M !! k) as G.
  { intros k Hk. rewrite lookup_app_r by lia. replace (length A + k - length A)%nat with k by lia. by rewrite lookup_app_l. }
  rewrite (G a La), (G b Lb), Ha, Hb. rewrite insert_app_r. rewrite insert_app_r.
  rewrite insert_app_l by done. rewrite insert_app_l by by rewrite insert_length. done.
Qed.

Lemma sigmaLoop_ok A Z sigma : forall j M, (forall x, x ∈ sigma -> (x < length M)%nat) -> (j + length sigma <= length M)%nat ->
  exists M', sigmaLoop (length A) j sigma (A ++ M ++ Z) = Some (A ++ M' ++ Z) /\ M' ≡ₚ M.
Proof.
  induction sigma as [|x sigma IH]; intros j M HX HL; cbn [sigmaLoop].
  - by exists M.
  - cbn [length] in HL. destruct (lookup_lt_is_Some_2 M j ltac:(lia)) as [u Hu].
    destruct (lookup_lt_is_Some_2 M x (HX x ltac:(left))) as [v Hv]. rewrite (swapPos_mid A M Z j x u v Hu Hv).
    destruct (IH (S j) (<[x := u]> (<[j := v]> M))) as (M' & E & HP).
    + intros y Hy. rewrite !insert_length. apply HX. by right.
    + rewrite !insert_length. lia.
    + exists M'. split; [done|]. rewrite HP. by apply swap_perm.
Qed.

(** [r'] arises from [r] by permuting each of the first blocks of [H] masks. *)
Inductive blockPerm (H : nat) : nat -> list N -> list N -> Prop :=
| bp_nil r : blockPerm H 0 r r
| bp_cons n M M' r r' : length M = H -> M' ≡ₚ M -> blockPerm H n r r' -> blockPerm H (S n) (M ++ r) (M' ++ r').

Lemma sigmaMasks_ok H sigmas : (0 < H)%nat -> Forall (fun sg => sg ≡ₚ seq 0 H) sigmas -> forall A r, (length sigmas * H <= length r)%nat ->
  exists r', sigmaMasks (length A) sigmas (A ++ r) = Some (A ++ r') /\ blockPerm H (length sigmas) r r'.
Proof.
  intros H0 HF. induction HF as [|sg sigmas Hsg HF IH]; intros A r HL; cbn [sigmaMasks].
  - exists r. split; [done|]. constructor.
  - cbn [length] in HL. assert (length sg = H) as Lsg by (rewrite Hsg; apply seq_length).
    rewrite <- (take_drop H r). set (M := take H r). set (Z := drop H r).
    assert (length M = H) as LM by (subst M; rewrite take_length; lia). assert (length Z = length r - H)%nat as LZ by apply drop_length.
    destruct (sigmaLoop_ok A Z (tail sg) 1 M) as (M' & E & HP).
    + intros x Hx. assert (x ∈ sg) as Hx' by (destruct sg; [by apply elem_of_nil in Hx|by right]). rewrite Hsg in Hx'. apply elem_of_seq in Hx'. lia.
    + destruct sg as [|a sg]; cbn [tail length] in *; lia.
    + rewrite E. rewrite Lsg. destruct (IH (A ++ M') Z ltac:(lia)) as (r' & E' & HB). rewrite app_length in E'.
      replace (length M') with H in E' by (rewrite HP; lia). rewrite <- app_assoc in E'. rewrite E'. exists (M' ++ r'). rewrite <- app_assoc.
      split; [done|]. by constructor.
Qed.

Lemma blockPerm_length H n r r' : blockPerm H n r r' -> length r' = length r.
Proof. induction 1 as [|n M M' r r' _ HM _ IH]; [done|]. rewrite !app_length, IH. by rewrite HM. Qed.
Lemma blockPerm_item H n r r' i : blockPerm H n r r' -> (i < n)%nat -> itemMasks H i r' ≡ₚ itemMasks H i r.
Proof.
  intros HB. revert i. induction HB as [|n M M' r r' HM HP HB IH]; intros i Hi; [lia|]. unfold itemMasks in *.
  assert (length M' = H) as LM' by (rewrite HP; done). destruct i as [|i].
  - cbn [Nat.mul]. rewrite !drop_0. rewrite !take_app_alt by done. exact HP.
  - cbn [Nat.mul]. rewrite <- !drop_drop. rewrite !drop_app_alt by done. apply IH. lia.
Qed.
Lemma blockPerm_rest H n r r' k : blockPerm H n r r' -> (n * H <= k)%nat -> r' !! k = r !! k.
Proof.
  intros HB. revert k. induction HB as [|n M M' r r' HM HP HB IH]; intros k Hk; [done|].
  assert (length M' = H) as LM' by (rewrite HP; done). rewrite !lookup_app_r by lia. rewrite HM, LM'. apply IH. lia.
Qed.
(** The mask at position [i * H + j] is one of the masks of item [i]. *)
Lemma blockPerm_lookup H n r r' i j : blockPerm H n r r' -> (i < n)%nat -> (j < H)%nat -> (n * H <= length r)%nat ->
  exists j', (j' < H)%nat /\ r' !! (i * H + j)%nat = r !! (i * H + j')%nat.
Proof.
  intros HB Hi Hj HL. pose proof (blockPerm_item H n r r' i HB Hi) as HP. pose proof (blockPerm_length _ _ _ _ HB) as L.
  assert (itemMasks H i r' !! j = r' !! (i * H + j)%nat) as E1 by (unfold itemMasks; rewrite lookup_take, lookup_drop by done; done).
  destruct (lookup_lt_is_Some_2 r' (i * H + j)) as [v Hv]; [rewrite L; nia|]. rewrite Hv in E1 |- *.
  assert (v ∈ itemMasks H i r) as Hin by (rewrite <- HP; by eapply elem_of_list_lookup_2).
  apply elem_of_list_lookup in Hin as [j' Hj']. assert (j' < H)%nat by (apply lookup_lt_Some in Hj'; unfold itemMasks in Hj'; rewrite take_length in Hj'; lia).
  exists j'. split; [done|]. unfold itemMasks in Hj'. rewrite lookup_take, lookup_drop in Hj' by done. done.
Qed.

(** ** The permutations cancel *)

Lemma invert_other l : forall k acc x, x ∉ l -> invert k l acc !! x = acc !! x.
Proof.
  induction l as [|y l IH]; intros k acc x Hx; [done|]. apply not_elem_of_cons in Hx as [H1 H2]. cbn [invert]. rewrite IH by done.
  by rewrite list_lookup_insert_ne.
Qed.
Lemma invert_ok l : forall k acc i x, NoDup l -> l !! i = Some x -> (x < length acc)%nat -> invert k l acc !! x = Some (k + i)%nat.
Proof.
  induction l as [|y l IH]; intros k acc i x ND Hi HL; [done|]. apply NoDup_cons in ND as [Hn ND]. cbn [invert]. destruct i as [|i].
  - injection Hi as ->. rewrite invert_other by done. rewrite list_lookup_insert by done. f_equal. lia.
  - cbn in Hi. rewrite (IH (S k) _ i x ND Hi); [f_equal; lia|by rewrite insert_length].
Qed.

Lemma mapM_lookup {A B} (f : A -> option B) (l : list A) (g : A -> B) : (forall x, x ∈ l -> f x = Some (g x)) -> mapM f l = Some (map g l).
Proof.
  induction l as [|x l IH]; intros H; [done|]. cbn. rewrite (H x) by left. cbn. rewrite IH; [done|]. intros y Hy. apply H. by right.
Qed.

Lemma lxor_cancel a b c m s : N.lxor (N.lxor a (N.lxor (N.lxor m s) (N.lxor c s))) (N.lxor b c) = N.lxor (N.lxor a b) m.
Proof. apply N.bits_inj. intros i. rewrite !N.lxor_spec. by destruct (N.testbit a i), (N.testbit b i), (N.testbit c i), (N.testbit m i), (N.testbit s i). Qed.

Lemma final_ok P (pi pi1 : list nat) (piS1 s r' sh0 sh1 : list N) : pi1 ≡ₚ seq 0 P -> Forall (fun k => (k < P)%nat) pi -> length pi = P ->
  length piS1 = P -> length s = P -> length r' = P -> length sh0 = P -> length sh1 = P ->
  exists pi0 piS0 rs final, clientPerm pi pi1 piS1 s = Some (pi0, piS0) /\ maskMessage pi1 r' s = Some rs /\
    server0Input sh0 (server1Message sh1 piS1) rs pi0 piS0 = Some final /\ length final = P /\
    forall i a b k m, sh0 !! i = Some a -> sh1 !! i = Some b -> pi !! i = Some k -> r' !! k = Some m -> final !! i = Some (N.lxor (N.lxor a b) m).
Proof.
  intros HP HF Lpi L1 Ls Lr L0 L1'.
  assert (length pi1 = P) as Lpi1 by (rewrite HP; apply seq_length). assert (NoDup pi1) as ND by (rewrite HP; apply NoDup_seq).
  set (inv := invert 0 pi1 (replicate (length pi1) 0%nat)).
  assert (forall k, (k < P)%nat -> exists i, inv !! k = Some i /\ pi1 !! i = Some k /\ (i < P)%nat) as Hinv.
  { intros k Hk. assert (k ∈ pi1) as Hin by (rewrite HP; apply elem_of_seq; lia). apply elem_of_list_lookup in Hin as [i Hi].
    exists i. split; [|split; [done|apply lookup_lt_Some in Hi; lia]]. subst inv. rewrite (invert_ok pi1 0 _ i k ND Hi); [done|]. rewrite replicate_length. lia. }
  set (g0 := fun k => default 0%nat (inv !! k)). set (gm := fun k => N.lxor (default 0 (r' !! k)) (default 0 (s !! k))).
  set (gp := fun e : nat * N => N.lxor e.2 (default 0 (s !! e.1))).
  assert (forall k, (k < P)%nat -> is_Some (s !! k)) as Hs by (intros k Hk; apply lookup_lt_is_Some_2; lia).
  assert (forall k, (k < P)%nat -> is_Some (r' !! k)) as Hr by (intros k Hk; apply lookup_lt_is_Some_2; lia).
  rewrite Forall_forall in HF.
  assert (clientPerm pi pi1 piS1 s = Some (map g0 pi, map gp (zip pi piS1))) as Ecp.
  { unfold clientPerm. fold inv. rewrite (mapM_lookup _ pi g0), (mapM_lookup _ (zip pi piS1) gp); [done| |].
    - intros [k v] Hx. apply elem_of_zip_l in Hx. destruct (Hs k (HF k Hx)) as [w Hw]. unfold gp. cbn [fst snd]. by rewrite Hw.
    - intros k Hx. destruct (Hinv k (HF k Hx)) as (i & Hi & _). unfold g0. by rewrite Hi. }
  assert (maskMessage pi1 r' s = Some (map gm pi1)) as Emm.
  { unfold maskMessage. apply mapM_lookup. intros k Hx. rewrite HP in Hx. apply elem_of_seq in Hx.
    destruct (Hs k ltac:(lia)) as [w Hw]. destruct (Hr k ltac:(lia)) as [u Hu]. unfold gm. by rewrite Hw, Hu. }
  assert (forall k, (k < P)%nat -> map gm pi1 !! g0 k = Some (gm k)) as Hrs.
  { intros k Hk. destruct (Hinv k Hk) as (i & Hi & Hi' & _). unfold g0. rewrite Hi. change (default 0%nat (Some i)) with i. change (map gm pi1) with (gm <$> pi1).
    rewrite list_lookup_fmap, Hi'. done. }
  set (gf := fun e : (N * N) * (nat * N) => N.lxor (N.lxor e.1.1 (N.lxor (default 0 (map gm pi1 !! e.2.1)) e.2.2)) e.1.2).
  assert (server0Input sh0 (server1Message sh1 piS1) (map gm pi1) (map g0 pi) (map gp (zip pi piS1)) =
          Some (map gf (zip (zip sh0 (server1Message sh1 piS1)) (zip (map g0 pi) (map gp (zip pi piS1)))))) as Efin.
  { unfold server0Input. apply mapM_lookup. intros [x y] Hx. apply elem_of_zip_r in Hx. destruct y as [k v]. apply elem_of_zip_l in Hx.
    apply elem_of_list_fmap in Hx as (k' & -> & Hk'). unfold gf. cbn [fst snd]. by rewrite (Hrs k' (HF k' Hk')). }
  eexists _, _, _, _. split; [exact Ecp|]. split; [exact Emm|]. split; [exact Efin|]. split.
  - rewrite map_length. unfold server1Message. rewrite !zip_with_length, !map_length, !zip_with_length. lia.
  - intros i a b k m Ha Hb Hk Hm. assert (k < P)%nat as Lk by (apply HF; by eapply elem_of_list_lookup_2).
    assert (i < P)%nat as Li by (apply lookup_lt_Some in Hk; lia). destruct (lookup_lt_is_Some_2 piS1 i ltac:(lia)) as [c Hc].
    change (map gf ?l) with (gf <$> l). rewrite list_lookup_fmap. unfold server1Message. rewrite !lookup_zip_with, Ha, Hb, Hc. cbn.
    change (map g0 pi) with (g0 <$> pi). change (map gp (zip pi piS1)) with (gp <$> zip pi piS1). rewrite !list_lookup_fmap, lookup_zip_with, Hk, Hc. cbn.
    unfold gf. cbn [fst snd]. change (gm <$> pi1) with (map gm pi1). rewrite (Hrs k Lk). change (default 0 (Some (gm k))) with (gm k).
    unfold gp, gm. cbn [fst snd]. rewrite Hm. cbn [default]. f_equal. apply lxor_cancel.
Qed.
