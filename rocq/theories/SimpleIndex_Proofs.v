(** Proofs about simple hashing. *)
From Coq Require Import QArith Lqa.
From Verif Require Import Base CuckooIndex_Model CuckooIndex_Spec CuckooIndex_Proofs SimpleIndex_Model SimpleIndex_Spec.
Open Scope N_scope.

(** ** Packed items *)

Lemma lor128 h : h < 128 -> N.lor h 128 = h + 128.
Proof.
  intros H.
  assert (forallb (fun k => N.lor (N.of_nat k) 128 =? N.of_nat k + 128) (seq 0 128) = true) as F
    by (vm_compute; reflexivity).
  rewrite forallb_forall in F. specialize (F (N.to_nat h)).
  rewrite N2Nat.id in F. apply N.eqb_eq, F. apply in_seq. lia.
Qed.

Definition cbit (c : bool) : N := if c then 128 else 0.
Lemma itemWord_pack idx h c : h < 128 ->
  itemWord idx h c = packWord (idx mod 2 ^ 56) (h + cbit c) /\ h + cbit c < 256.
Proof.
  intros H. assert (h + cbit c < 256) as L by (destruct c; simpl; lia). split; [|done].
  unfold itemWord, packWord. change (2 ^ 56 - 1) with (N.ones 56). rewrite N.land_ones. f_equal.
  assert (N.lor h (if c then 128 else 0) = h + cbit c) as ->.
  { destruct c; simpl; [by apply lor128|]. by rewrite N.lor_0_r, N.add_0_r. }
  rewrite (N.mod_small (h + cbit c)) by done.
  rewrite N.mod_small; [done|]. rewrite N.shiftl_mul_pow2. change two64 with (256 * 2 ^ 56). nia.
Qed.

Lemma itemWord_add idx h c : h < 128 -> itemWord idx h c = idx mod 2 ^ 56 + (h + cbit c) * 2 ^ 56.
Proof.
  intros H. destruct (itemWord_pack idx h c H) as [-> L]. apply packWord_add; [|done].
  apply N.mod_lt. done.
Qed.

Lemma decode_itemWord idx h c : idx < 2 ^ 56 -> h < 128 -> decodeItem (itemWord idx h c) = (idx, h, c).
Proof.
  intros Hi Hh. rewrite itemWord_add by done. rewrite N.mod_small by done.
  unfold decodeItem. f_equal; [f_equal|].
  - rewrite N.mod_add by done. by apply N.mod_small.
  - rewrite N.div_add by done. rewrite N.div_small by done. rewrite N.add_0_l.
    destruct c; simpl cbit.
    + replace (h + 128) with (h + 1 * 128) by lia. rewrite N.mod_add by done. by apply N.mod_small.
    + rewrite N.add_0_r. by apply N.mod_small.
  - change (2 ^ 63) with (128 * 2 ^ 56). destruct c; simpl cbit.
    + apply bool_decide_eq_true. nia.
    + apply bool_decide_eq_false. nia.
Qed.

Lemma itemWord_ok idx h c : idx < 2 ^ 56 - 1 -> h < 128 ->
  itemIdx (itemWord idx h c) = idx /\ itemHashIdx (itemWord idx h c) = h /\
  itemCollision (itemWord idx h c) = c /\ itemEmpty (itemWord idx h c) = false /\
  itemWord idx h c < 2 ^ 64.
Proof.
  intros Hi Hh. assert (idx < 2 ^ 56) as Hi' by lia.
  pose proof (decode_itemWord idx h c Hi' Hh) as D. unfold decodeItem in D. injection D as D1 D2 D3.
  assert (itemWord idx h c < 2 ^ 64) as L.
  { rewrite itemWord_add, N.mod_small by done. change (2 ^ 64) with (256 * 2 ^ 56).
    destruct c; simpl cbit; nia. }
  split; [|split; [|split; [|split]]]; try done.
  - unfold itemIdx. change (N.shiftr u64max 8) with (N.ones 56). by rewrite N.land_ones.
  - unfold itemHashIdx. change 127 with (N.ones 7). by rewrite N.land_ones, N.shiftr_div_pow2.
  - unfold itemCollision. rewrite N.shiftr_shiftr, N.shiftr_div_pow2. change (56 + 7) with 63.
    clear D1 D2. set (w := itemWord idx h c) in *. clearbody w. rewrite <- D3. destruct (N.ltb_spec 0 (w / 2 ^ 63)) as [Hl|Hl]; symmetry.
    + apply bool_decide_eq_true. destruct (N.lt_ge_cases w (2 ^ 63)) as [Hx|]; [|done].
      rewrite N.div_small in Hl by done. lia.
    + apply bool_decide_eq_false. intros Hx.
      pose proof (N.div_le_mono _ _ (2 ^ 63) ltac:(done) Hx) as Hd. rewrite N.div_same in Hd by done. lia.
  - unfold itemEmpty. apply N.eqb_neq. intros E. rewrite E in D1. vm_compute in D1. lia.
Qed.

(** ** Executing stores *)

Definition toPut (o : siOp) : option (N * (N * N * bool)) :=
  match o with Put b i h c => Some (b, (i, h, c)) | SetMap _ _ _ => None end.
Definition wordOf (e : N * N * bool) : N := itemWord e.1.1 e.1.2 e.2.
Definition putsAt (b : nat) (ops : list siOp) : list (N * N * bool) :=
  omap (fun o => match toPut o with
                 | Some (b', e) => if decide (N.to_nat b' = b) then Some e else None
                 | None => None end) ops.

Definition shapeOK (s : SIndex) : Prop :=
  length (siSizes s) = length (siBins s) /\
  forall b n row, siSizes s !! b = Some n -> siBins s !! b = Some row -> (N.to_nat n <= length row)%nat.

Lemma take_insert_last {A} (l : list A) n (x : A) : (n < length l)%nat ->
  take (S n) (<[n := x]> l) = take n l ++ [x].
Proof.
  intros H. rewrite (take_S_r _ _ x) by (by apply list_lookup_insert). by rewrite take_insert by lia.
Qed.

Lemma siExec_put s b i h c s' : shapeOK s -> siExec s (Put b i h c) = Some s' ->
  exists n row, siSizes s !! N.to_nat b = Some n /\ siBins s !! N.to_nat b = Some row /\
    (N.to_nat n < length row)%nat /\
    siBins s' = <[N.to_nat b := <[N.to_nat n := itemWord i h c]> row]> (siBins s) /\
    siSizes s' = <[N.to_nat b := n + 1]> (siSizes s) /\ siMap s' = siMap s /\
    siH s' = siH s /\ siNumBins s' = siNumBins s.
Proof.
  intros S. unfold siExec. destruct (readN (siSizes s) b) as [n|] eqn:E1; [|done].
  destruct (readN (siBins s) b) as [row|] eqn:E2; [|done].
  destruct (writeN row n _) as [row'|] eqn:E3; [|done]. intros [= <-].
  apply readN_Some in E1, E2. apply writeN_Some in E3 as [L ->]. exists n, row. simpl.
  split_and!; try done. lia.
Qed.

Lemma siExec_map s r h v s' : siExec s (SetMap r h v) = Some s' ->
  exists row, siMap s !! N.to_nat r = Some row /\ (N.to_nat h < length row)%nat /\
    siBins s' = siBins s /\ siSizes s' = siSizes s /\
    siMap s' = <[N.to_nat r := <[N.to_nat h := v]> row]> (siMap s) /\
    siH s' = siH s /\ siNumBins s' = siNumBins s.
Proof.
  unfold siExec. destruct (readN (siMap s) r) as [row|] eqn:E1; [|done].
  destruct (writeN row h v) as [row'|] eqn:E2; [|done]. intros [= <-].
  apply readN_Some in E1. apply writeN_Some in E2 as [L ->]. exists row. simpl.
  split_and!; try done. lia.
Qed.

Lemma siExec_shape s o s' : shapeOK s -> siExec s o = Some s' -> shapeOK s'.
Proof.
  intros S E. pose proof S as [SL SR]. destruct o as [b i h c|r h v].
  - destruct (siExec_put _ _ _ _ _ _ S E) as (n & row & H1 & H2 & H3 & HB & HS & _).
    split; rewrite HB, HS; [by rewrite !insert_length|].
    intros b' n' row'. destruct (decide (N.to_nat b = b')) as [<-|Hne].
    + rewrite !list_lookup_insert by eauto using lookup_lt_Some. intros [= <-] [= <-].
      rewrite insert_length. lia.
    + rewrite !list_lookup_insert_ne by done. apply SR.
  - destruct (siExec_map _ _ _ _ _ E) as (row & _ & _ & HB & HS & _). unfold shapeOK. by rewrite HB, HS.
Qed.

Definition rowWords (s : SIndex) (b : nat) : option (list N) :=
  match siSizes s !! b, siBins s !! b with
  | Some n, Some row => Some (take (N.to_nat n) row)
  | _, _ => None
  end.

Lemma siExec_row s o s' b ws : shapeOK s -> siExec s o = Some s' ->
  rowWords s b = Some ws -> rowWords s' b = Some (ws ++ map wordOf (putsAt b [o])).
Proof.
  intros S E. unfold rowWords. destruct o as [b0 i h c|r h v].
  - destruct (siExec_put _ _ _ _ _ _ S E) as (n & row & H1 & H2 & H3 & HB & HS & _).
    rewrite HB, HS. unfold putsAt. simpl. destruct (decide (N.to_nat b0 = b)) as [<-|Hne].
    + rewrite !list_lookup_insert by eauto using lookup_lt_Some. rewrite H1, H2. intros [= <-].
      replace (N.to_nat (n + 1)) with (Datatypes.S (N.to_nat n)) by lia.
      by rewrite take_insert_last by done.
    + rewrite !list_lookup_insert_ne by done. simpl. by rewrite app_nil_r.
  - destruct (siExec_map _ _ _ _ _ E) as (row & _ & _ & HB & HS & _). rewrite HB, HS.
    unfold putsAt. simpl. by rewrite app_nil_r.
Qed.

Lemma siRun_row ops : forall s s' b ws, shapeOK s -> siRun s ops = Some s' ->
  rowWords s b = Some ws -> rowWords s' b = Some (ws ++ map wordOf (putsAt b ops)).
Proof.
  induction ops as [|o ops IH]; intros s s' b ws S E R; simpl in E.
  - injection E as <-. simpl. by rewrite app_nil_r.
  - destruct (siExec s o) as [s1|] eqn:E1; [|done].
    pose proof (siExec_row _ _ _ _ _ S E1 R) as R1.
    rewrite (IH _ _ _ _ (siExec_shape _ _ _ S E1) E R1). f_equal.
    rewrite <- app_assoc. f_equal. rewrite <- map_app. f_equal. unfold putsAt.
    by rewrite <- omap_app.
Qed.

(** Map cells: the value of the last store, if any. *)
Definition toMap (o : siOp) : option (nat * nat * N) :=
  match o with SetMap r h v => Some (N.to_nat r, N.to_nat h, v) | _ => None end.

Lemma siExec_cell s o s' i h : shapeOK s -> siExec s o = Some s' ->
  mapCell s' i h = match toMap o with
                   | Some (i', h', v) => if decide (i' = i /\ h' = h) then Some v else mapCell s i h
                   | None => mapCell s i h end.
Proof.
  intros S E. destruct o as [b0 i0 h0 c|r h0 v]; simpl.
  - destruct (siExec_put _ _ _ _ _ _ S E) as (n & row & _ & _ & _ & _ & _ & HM & _). unfold mapCell. by rewrite HM.
  - destruct (siExec_map _ _ _ _ _ E) as (row & H1 & H2 & _ & _ & HM & _). unfold mapCell. rewrite HM.
    destruct (decide (N.to_nat r = i)) as [<-|Hne].
    + rewrite list_lookup_insert by eauto using lookup_lt_Some. rewrite H1.
      destruct (decide (N.to_nat h0 = h)) as [<-|Hne].
      * rewrite decide_True by done. by rewrite list_lookup_insert.
      * rewrite decide_False by tauto. by rewrite list_lookup_insert_ne.
    + rewrite decide_False by tauto. by rewrite list_lookup_insert_ne.
Qed.

Lemma siRun_cell_other ops : forall s s' i h, shapeOK s -> siRun s ops = Some s' ->
  (forall v, (i, h, v) ∉ omap toMap ops) -> mapCell s' i h = mapCell s i h.
Proof.
  induction ops as [|o ops IH]; intros s s' i h S E N; simpl in E; [by injection E as <-|].
  destruct (siExec s o) as [s1|] eqn:E1; [|done].
  rewrite (IH _ _ _ _ (siExec_shape _ _ _ S E1) E).
  - rewrite (siExec_cell _ _ _ _ _ S E1). simpl in N.
    destruct (toMap o) as [[[i' h'] v]|]; [|done]. rewrite decide_False; [done|].
    intros [-> ->]. apply (N v). left.
  - intros v Hv. apply (N v). simpl. destruct (toMap o); [by right|done].
Qed.

(** If all stores to a cell store the same value, the cell has that value. *)
Lemma siRun_cell ops : forall s s' i h v, shapeOK s -> siRun s ops = Some s' ->
  (i, h, v) ∈ omap toMap ops -> (forall v', (i, h, v') ∈ omap toMap ops -> v' = v) ->
  mapCell s' i h = Some v.
Proof.
  induction ops as [|o ops IH]; intros s s' i h v S E I U; simpl in *; [by apply elem_of_nil in I|].
  destruct (siExec s o) as [s1|] eqn:E1; [|done].
  destruct (decide ((i, h, v) ∈ omap toMap ops)) as [I'|N].
  - apply (IH s1); [by eapply siExec_shape|done|done|]. intros v' H'. apply U. destruct (toMap o); [by right|done].
  - rewrite (siRun_cell_other ops _ _ _ _ (siExec_shape _ _ _ S E1) E).
    + rewrite (siExec_cell _ _ _ _ _ S E1). destruct (toMap o) as [[[i' h'] v0]|]; [|done].
      apply elem_of_cons in I as [[= -> -> ->]|I]; [by rewrite decide_True|done].
    + intros v' H'. assert (v' = v) as ->; [|done]. apply U. destruct (toMap o); [by right|done].
Qed.

(** ** What the stores are *)

Definition putE (nb idx hash h : N) : N * (N * N * bool) := (binOf nb hash h, (idx, h, collides nb hash h)).
Definition mapE (nb : N) (row hash h : N) : nat * nat * N :=
  (N.to_nat row, N.to_nat h, N.lor (binOf nb hash h) (if collides nb hash h then u64max else 0)).
Definition hs (H : N) : list N := map N.of_nat (seq 0 (N.to_nat H)).
Definition allPuts (nb H : N) (items : list (N * N)) : list (N * (N * N * bool)) :=
  concat (map (fun l => map (putE nb l.1 l.2) (hs H)) items).
Definition allMaps (nb H : N) (items : list (N * N)) : list (nat * nat * N) :=
  concat (map (fun l => map (mapE nb l.1 l.2) (hs H)) items).

Lemma omap_concat {A B} (f : A -> option B) (ls : list (list A)) :
  omap f (concat ls) = concat (map (omap f) ls).
Proof. induction ls as [|l ls IH]; simpl; [done|]. by rewrite omap_app, IH. Qed.

Lemma toPut_puts nb h lanes : omap toPut (map (fun l => putOp nb l.1 l.2 h) lanes) = map (fun l => putE nb l.1 l.2 h) lanes.
Proof. induction lanes; simpl; [done|]. by f_equal. Qed.
Lemma toPut_maps nb h lanes : omap toPut (map (fun l : N * N => mapOp nb l.1 l.2 h) lanes) = [].
Proof. induction lanes; simpl; done. Qed.
Lemma toMap_puts nb h lanes : omap toMap (map (fun l : N * N => putOp nb l.1 l.2 h) lanes) = [].
Proof. induction lanes; simpl; done. Qed.
Lemma toMap_maps nb h lanes : omap toMap (map (fun l => mapOp nb l.1 l.2 h) lanes) = map (fun l => mapE nb l.1 l.2 h) lanes.
Proof. induction lanes; simpl; [done|]. by f_equal. Qed.

Lemma transpose3 {A B} (f : A -> N -> B) (lanes : list A) :
  concat (map (fun h => map (fun l => f l h) lanes) [0; 1; 2]) ≡ₚ concat (map (fun l => map (f l) (hs 3)) lanes).
Proof.
  change (hs 3) with [0; 1; 2].
  induction lanes as [|l lanes IH]; [done|]. cbn [map concat]. cbn [map concat] in IH.
  cbn [map concat app]. rewrite app_nil_r in *. 
  rewrite <- IH. constructor. by rewrite <- !Permutation_middle.
Qed.

Lemma chunk3_puts nb lanes : omap toPut (chunk3 nb lanes) ≡ₚ allPuts nb 3 lanes.
Proof.
  unfold allPuts. rewrite <- (transpose3 (fun l => putE nb l.1 l.2)). unfold chunk3. rewrite omap_concat, map_map.
  cbn [map concat]. by rewrite !omap_app, !toPut_puts, !toPut_maps, !app_nil_r.
Qed.
Lemma chunk3_maps nb lanes : omap toMap (chunk3 nb lanes) ≡ₚ allMaps nb 3 lanes.
Proof.
  unfold allMaps. rewrite <- (transpose3 (fun l => mapE nb l.1 l.2)). unfold chunk3. rewrite omap_concat, map_map.
  cbn [map concat]. by rewrite !omap_app, !toMap_maps, !toMap_puts.
Qed.

Lemma allPuts_app nb H l1 l2 : allPuts nb H (l1 ++ l2) = allPuts nb H l1 ++ allPuts nb H l2.
Proof. unfold allPuts. by rewrite map_app, concat_app. Qed.
Lemma allMaps_app nb H l1 l2 : allMaps nb H (l1 ++ l2) = allMaps nb H l1 ++ allMaps nb H l2.
Proof. unfold allMaps. by rewrite map_app, concat_app. Qed.

Lemma main3_stores nb steps : forall items,
  omap toPut (main3 nb steps items) ≡ₚ allPuts nb 3 (take (8 * steps + 1) items) /\
  omap toMap (main3 nb steps items) ≡ₚ allMaps nb 3 (take (8 * steps + 1) items).
Proof.
  induction steps as [|k IH]; intros items.
  - simpl. destruct items as [|l items]; [done|]. simpl. rewrite firstn_O.
    unfold allPuts, allMaps. simpl. done.
  - cbn [main3]. destruct (IH (drop 8 items)) as [I1 I2].
    replace (take (8 * S k + 1) items) with (take 8 items ++ take (8 * k + 1) (drop 8 items)).
    + rewrite !omap_app, allPuts_app, allMaps_app, chunk3_puts, chunk3_maps, I1, I2. done.
    + rewrite take_take_drop. f_equal. lia.
Qed.

(** Non-three case: all items are put; map rows are displaced. *)
Lemma concat_map_pairs {A B} (f g : A -> siOp) (p : siOp -> option B) l :
  omap p (concat (map (fun h => [f h; g h]) l)) = concat (map (fun h => omap p [f h; g h]) l).
Proof. by rewrite omap_concat, map_map. Qed.

Lemma concat_map_single {A B} (f : A -> B) l : concat (map (fun h => [f h]) l) = map f l.
Proof. induction l; simpl; [done|]. by f_equal. Qed.

Lemma mainN_puts nb H fuel : forall start items, (length items <= 8 * fuel)%nat ->
  omap toPut (mainN nb H fuel start items) = allPuts nb H items.
Proof.
  induction fuel as [|k IH]; intros start items L.
  - destruct items; [done|simpl in L; lia].
  - destruct items as [|l items]; [done|]. cbn [mainN]. rewrite omap_app, IH.
    + rewrite <- (take_drop 8 (l :: items)) at 3. rewrite allPuts_app. f_equal.
      unfold allPuts. rewrite omap_concat, map_map. f_equal. apply map_ext. intros a.
      rewrite concat_map_pairs. apply concat_map_single.
    + rewrite drop_length. lia.
Qed.

Lemma mainN_maps nb H fuel : forall start items, (length items <= 8 * fuel)%nat -> (length items <= 8)%nat ->
  omap toMap (mainN nb H fuel start items) =
  concat (map (fun l => map (mapE nb (l.1 + start) l.2) (hs H)) items).
Proof.
  destruct fuel as [|k]; intros start items L L8.
  - destruct items; [done|simpl in L; lia].
  - destruct items as [|l items]; [done|]. cbn [mainN]. rewrite (drop_ge (l :: items)) by done.
    rewrite (take_ge (l :: items)) by done.
    replace (mainN nb H k (start + 8) []) with (@nil siOp) by (by destruct k).
    rewrite app_nil_r. rewrite omap_concat, map_map. f_equal. apply map_ext. intros a.
    rewrite concat_map_pairs. apply concat_map_single.
Qed.

(** ** Entries of a bin *)

Definition sel (b : nat) (p : N * (N * N * bool)) : option (N * N * bool) :=
  if decide (N.to_nat p.1 = b) then Some p.2 else None.

Lemma putsAt_sel b ops : putsAt b ops = omap (sel b) (omap toPut ops).
Proof.
  unfold putsAt. induction ops as [|o ops IH]; [done|].
  simpl. destruct (toPut o) as [[b' e]|]; simpl; [|exact IH].
  unfold sel at 1. simpl. destruct (decide _); [f_equal|]; exact IH.
Qed.

Lemma elem_of_hs h H : h ∈ hs H <-> h < H.
Proof.
  unfold hs. rewrite elem_of_list_fmap. split.
  - intros (k & -> & Hk%elem_of_seq). lia.
  - intros L. exists (N.to_nat h). split; [lia|]. apply elem_of_seq. lia.
Qed.
Lemma NoDup_hs H : NoDup (hs H).
Proof. unfold hs. apply NoDup_fmap_2; [intros ??; lia|]. apply NoDup_seq. Qed.

Lemma elem_allPuts nb H l b i h c :
  (i, h, c) ∈ omap (sel b) (allPuts nb H l) <->
  exists hash, (i, hash) ∈ l /\ h < H /\ N.to_nat (binOf nb hash h) = b /\ c = collides nb hash h.
Proof.
  rewrite elem_of_list_omap. unfold allPuts. split.
  - intros ([b' e] & He & Hs). unfold sel in Hs. simpl in Hs.
    destruct (decide _) as [Hb|]; [|done]. injection Hs as ->.
    apply elem_of_concat in He as (l' & He & Hl'). apply elem_of_list_fmap in Hl' as ([i0 hash] & -> & Hi).
    apply elem_of_list_fmap in He as (h0 & E & Hh). unfold putE in E. injection E as -> -> -> ->.
    apply elem_of_hs in Hh. eauto.
  - intros (hash & Hi & Hh & Hb & ->). exists (putE nb i hash h). split.
    + apply elem_of_concat. exists (map (putE nb i hash) (hs H)). split.
      * apply elem_of_list_fmap_1. by apply elem_of_hs.
      * by apply (elem_of_list_fmap_1 (fun l => map (putE nb l.1 l.2) (hs H)) l (i, hash)).
    + unfold sel, putE. simpl. by rewrite decide_True.
Qed.

Lemma NoDup_allPuts nb H l b : NoDup l.*1 -> NoDup (omap (sel b) (allPuts nb H l)).
Proof.
  induction l as [|[i hash] l IH]; intros ND; [constructor|].
  rewrite fmap_cons in ND. apply NoDup_cons in ND as [Hn ND].
  change (allPuts nb H ((i, hash) :: l)) with (map (putE nb i hash) (hs H) ++ allPuts nb H l).
  rewrite omap_app. apply NoDup_app. split; [|split; [|by apply IH]].
  - generalize (NoDup_hs H). generalize (hs H). intros l0. induction l0 as [|h l0 IH0]; intros N0; [constructor|].
    apply NoDup_cons in N0 as [Hh N0]. simpl. unfold sel at 1. simpl. destruct (decide _); [|by apply IH0].
    apply NoDup_cons. split; [|by apply IH0]. intros Hin. apply elem_of_list_omap in Hin as (p & Hp & Hs).
    apply elem_of_list_fmap in Hp as (h' & -> & Hh'). unfold sel, putE in Hs. simpl in Hs.
    destruct (decide _); [|done]. injection Hs as -> _. done.
  - intros [[i' h'] c'] H1 H2. apply elem_allPuts in H2 as (hash' & Hi' & _).
    apply elem_of_list_omap in H1 as (p & Hp & Hs). apply elem_of_list_fmap in Hp as (h0 & -> & _).
    unfold sel, putE in Hs. simpl in Hs. destruct (decide _); [|done]. injection Hs as -> _ _.
    apply Hn. apply elem_of_list_fmap. by exists (i', hash').
Qed.

Lemma binOf_mapsTo nb hash h b : 0 < nb -> h <= 4 -> (binOf nb hash h = b <-> mapsTo nb hash h b).
Proof.
  intros Hn Hh. unfold binOf, getHash, mapsTo, two64.
  rewrite (proj2 (N.eqb_neq nb 0)) by lia. rewrite (proj2 (N.ltb_ge 4 h)) by done. simpl.
  rewrite N.shiftr_div_pow2. split; intros; congruence.
Qed.

Lemma mapsTo_bin nb hash h b : 0 < nb -> h <= 4 -> binOf nb hash h = b -> mapsTo nb hash h b.
Proof. intros. by apply (proj1 (binOf_mapsTo nb hash h b ltac:(done) ltac:(done))). Qed.

Lemma collidesBelow_spec nb hash b n : forall h,
  collidesBelow nb hash b h n = true <-> exists h', h <= h' < h + N.of_nat n /\ binOf nb hash h' = b.
Proof.
  induction n as [|n IH]; intros h; simpl.
  - split; [done|]. intros (h' & H' & _). lia.
  - rewrite orb_true_iff, N.eqb_eq, IH. split.
    + intros [E|(h' & H1 & H2)]; [exists h|exists h']; (split; [lia|done]).
    + intros (h' & H1 & H2). destruct (N.eq_dec h' h) as [->|]; [by left|right]. exists h'. split; [lia|done].
Qed.

Lemma collides_repeats nb hash h : 0 < nb -> h <= 4 -> (collides nb hash h = true <-> repeats nb hash h).
Proof.
  intros Hn Hh. unfold collides. rewrite collidesBelow_spec. unfold repeats. split.
  - intros (h' & H1 & H2). exists h', (binOf nb hash h). split; [lia|].
    split; apply mapsTo_bin; (lia || done).
  - intros (h' & b & H1 & H2 & H3). exists h'. split; [lia|].
    apply binOf_mapsTo in H2; [|lia|lia]. apply binOf_mapsTo in H3; [|lia|lia]. congruence.
Qed.

Lemma binOf_lt nb hash h : 0 < nb -> h <= 4 -> binOf nb hash h < nb.
Proof.
  intros Hn Hh. unfold binOf, getHash.
  rewrite (proj2 (N.eqb_neq nb 0)) by lia. rewrite (proj2 (N.ltb_ge 4 h)) by done. simpl.
  apply N.mod_lt. lia.
Qed.

(** ** Whole insertion *)

Lemma siInit_shape nb nballs H mx : shapeOK (siInit nb nballs H mx).
Proof.
  split; simpl; [by rewrite !replicate_length|].
  intros b n row [-> _]%lookup_replicate _. lia.
Qed.

Lemma siInit_row nb nballs H mx b : (b < N.to_nat nb)%nat -> rowWords (siInit nb nballs H mx) b = Some [].
Proof. intros L. unfold rowWords. simpl. by rewrite !lookup_replicate_2. Qed.

Lemma rowWords_entries s b ws : rowWords s b = Some ws -> binEntries s b = map decodeItem ws.
Proof.
  unfold rowWords, binEntries. destruct (siSizes s !! b), (siBins s !! b); try done. by intros [= <-].
Qed.

Lemma siExec_len s o s' : siExec s o = Some s' -> shapeOK s ->
  length (siBins s') = length (siBins s) /\ length (siSizes s') = length (siSizes s).
Proof.
  intros E S. destruct o.
  - destruct (siExec_put _ _ _ _ _ _ S E) as (? & ? & _ & _ & _ & -> & -> & _). by rewrite !insert_length.
  - destruct (siExec_map _ _ _ _ _ E) as (? & _ & _ & -> & -> & _). done.
Qed.
Lemma siRun_len ops : forall s s', siRun s ops = Some s' -> shapeOK s ->
  length (siBins s') = length (siBins s) /\ length (siSizes s') = length (siSizes s).
Proof.
  induction ops as [|o ops IH]; intros s s' E S; simpl in E; [by injection E as <-|].
  destruct (siExec s o) as [s1|] eqn:E1; [|done]. destruct (siExec_len _ _ _ E1 S) as [<- <-].
  apply IH; [done|]. by eapply siExec_shape.
Qed.

Definition itemsOf (enc : N -> N) (xs : list N) : list (N * N) := imap (fun i x => (N.of_nat i, N.lxor (enc x) x)) xs.

Lemma elem_itemsOf enc xs m i hash : (i, hash) ∈ take m (itemsOf enc xs) <->
  exists x, xs !! N.to_nat i = Some x /\ (N.to_nat i < m)%nat /\ hash = N.lxor (enc x) x.
Proof.
  rewrite elem_of_list_lookup. unfold itemsOf. split.
  - intros (k & Hk). pose proof (lookup_lt_Some _ _ _ Hk) as Hl. rewrite take_length in Hl.
    rewrite lookup_take in Hk by lia. rewrite list_lookup_imap in Hk.
    destruct (xs !! k) as [x|] eqn:Ex; [|done]. simpl in Hk. injection Hk as <- <-.
    exists x. rewrite Nat2N.id. split; [done|]. split; [lia|done].
  - intros (x & Hx & Hm & ->). exists (N.to_nat i). rewrite lookup_take by done.
    rewrite list_lookup_imap, Hx. simpl. by rewrite N2Nat.id.
Qed.
Lemma NoDup_itemsOf enc xs m : NoDup (take m (itemsOf enc xs)).*1.
Proof.
  rewrite fmap_take. apply NoDup_take.
  replace (itemsOf enc xs).*1 with (map N.of_nat (seq 0 (length xs))).
  - apply NoDup_fmap_2; [intros ??; lia|apply NoDup_seq].
  - apply list_eq. intros k. unfold itemsOf. rewrite list_lookup_fmap, list_lookup_fmap, list_lookup_imap.
    destruct (xs !! k) as [x|] eqn:Ex; simpl.
    + apply lookup_lt_Some in Ex. by rewrite lookup_seq_lt.
    + apply lookup_ge_None in Ex. by rewrite lookup_seq_ge.
Qed.

Lemma run_entries enc nb nballs H mx xs m ops s' b :
  0 < nb -> H <= 5 -> N.of_nat (length xs) <= 2 ^ 56 ->
  omap toPut ops ≡ₚ allPuts nb H (take m (itemsOf enc xs)) ->
  siRun (siInit nb nballs H mx) ops = Some s' ->
  NoDup (binEntries s' b) /\
  forall i h c, (i, h, c) ∈ binEntries s' b <->
    exists x, xs !! N.to_nat i = Some x /\ (N.to_nat i < m)%nat /\ h < H /\
      mapsTo nb (N.lxor (enc x) x) h (N.of_nat b) /\ (c = true <-> repeats nb (N.lxor (enc x) x) h).
Proof.
  intros Hnb HH Hlen P E.
  destruct (decide (b < N.to_nat nb)%nat) as [Hb|Hb].
  - pose proof (siRun_row ops _ _ b [] (siInit_shape _ _ _ _) E (siInit_row _ _ _ _ _ Hb)) as R.
    apply rowWords_entries in R. simpl in R. rewrite putsAt_sel in R.
    assert (omap (sel b) (omap toPut ops) ≡ₚ omap (sel b) (allPuts nb H (take m (itemsOf enc xs)))) as P'
      by (by rewrite P).
    assert (binEntries s' b = omap (sel b) (omap toPut ops)) as R'.
    { rewrite R, map_map. rewrite <- (map_id (omap (sel b) (omap toPut ops))) at 2. apply map_ext_in.
      intros [[i h] c] Hin%elem_of_list_In. rewrite P' in Hin.
      apply elem_allPuts in Hin as (hash & Hi & Hh & _). apply elem_itemsOf in Hi as (x & Hx & _).
      apply lookup_lt_Some in Hx. unfold wordOf. simpl. apply decode_itemWord; lia. }
    rewrite R'. split.
    + eapply NoDup_perm; [symmetry; exact P'|]. apply NoDup_allPuts, NoDup_itemsOf.
    + intros i h c. rewrite P', elem_allPuts. split.
      * intros (hash & Hi & Hh & Hbin & ->). apply elem_itemsOf in Hi as (x & Hx & Hm & ->).
        exists x. split_and!; try done.
        -- apply mapsTo_bin; [done|lia|]. lia.
        -- apply collides_repeats; [done|lia].
      * intros (x & Hx & Hm & Hh & Hmap & Hc). exists (N.lxor (enc x) x). split_and!; try done.
        -- apply elem_itemsOf. eauto.
        -- apply binOf_mapsTo in Hmap; [lia|done|lia].
        -- rewrite <- collides_repeats in Hc by (done || lia).
           destruct c, (collides nb (N.lxor (enc x) x) h); naive_solver.
  - assert (binEntries s' b = []) as ->.
    { unfold binEntries. destruct (siRun_len _ _ _ E (siInit_shape _ _ _ _)) as [_ L].
      simpl in L. rewrite replicate_length in L.
      destruct (siSizes s' !! b) eqn:Eb; [|done]. apply lookup_lt_Some in Eb. lia. }
    split; [constructor|]. intros i h c. split; [by intros ?%elem_of_nil|].
    intros (x & _ & _ & Hh & Hmap & _). exfalso. apply binOf_mapsTo in Hmap; [|done|lia].
    pose proof (binOf_lt nb (N.lxor (enc x) x) h Hnb ltac:(lia)). lia.
Qed.

Lemma run_cells enc nb nballs H mx xs m ops s' :
  0 < nb -> H <= 5 -> nb < 2 ^ 64 ->
  (forall e, e ∈ omap toMap ops <-> e ∈ allMaps nb H (take m (itemsOf enc xs))) ->
  siRun (siInit nb nballs H mx) ops = Some s' ->
  (forall i h x, xs !! i = Some x -> (i < m)%nat -> (h < N.to_nat H)%nat ->
    exists v, mapCell s' i h = Some v /\
      (repeats nb (N.lxor (enc x) x) (N.of_nat h) -> v = 2 ^ 64 - 1) /\
      (~ repeats nb (N.lxor (enc x) x) (N.of_nat h) -> mapsTo nb (N.lxor (enc x) x) (N.of_nat h) v)) /\
  (forall i h, (m <= i)%nat \/ (length xs <= i)%nat -> mapCell s' i h = mapCell (siInit nb nballs H mx) i h).
Proof.
  intros Hnb HH H64 P E.
  assert (forall i h v, (i, h, v) ∈ omap toMap ops <->
     exists x, xs !! i = Some x /\ (i < m)%nat /\ (h < N.to_nat H)%nat /\
       v = N.lor (binOf nb (N.lxor (enc x) x) (N.of_nat h)) (if collides nb (N.lxor (enc x) x) (N.of_nat h) then u64max else 0)) as M.
  { intros i h v. rewrite P. unfold allMaps. rewrite elem_of_concat. split.
    - intros (l & Hl & Hin). apply elem_of_list_fmap in Hin as ([i0 hash] & -> & Hi).
      apply elem_of_list_fmap in Hl as (h0 & E0 & Hh). injection E0 as -> -> ->.
      apply elem_itemsOf in Hi as (x & Hx & Hm & ->). apply elem_of_hs in Hh. exists x.
      rewrite N2Nat.id. split_and!; try done. lia.
    - intros (x & Hx & Hm & Hh & ->).
      exists (map (mapE nb (N.of_nat i) (N.lxor (enc x) x)) (hs H)). split.
      + apply elem_of_list_fmap. exists (N.of_nat h). split; [|apply elem_of_hs; lia].
        unfold mapE. by rewrite !Nat2N.id.
      + apply (elem_of_list_fmap_1 (fun l => map (mapE nb l.1 l.2) (hs H)) _ (N.of_nat i, N.lxor (enc x) x)).
        apply elem_itemsOf. exists x. by rewrite Nat2N.id. }
  split.
  - intros i h x Hx Hm Hh. eexists. split.
    + eapply siRun_cell; [apply siInit_shape|exact E|apply M; exists x; split_and!; done|].
      intros v' (x' & Hx' & _ & _ & ->)%M. rewrite Hx in Hx'. by injection Hx' as ->.
    + set (hash := N.lxor (enc x) x).
      pose proof (collides_repeats nb hash (N.of_nat h) Hnb ltac:(lia)) as C. split; intros R.
      * apply C in R. rewrite R.
        assert (binOf nb hash (N.of_nat h) < 2 ^ 64) as L
          by (eapply N.lt_trans; [apply binOf_lt; [done|lia]|done]).
        change u64max with (N.ones 64). rewrite N.lor_ones_low; [done|].
        destruct (N.eq_dec (binOf nb hash (N.of_nat h)) 0) as [->|]; [done|]. apply N.log2_lt_pow2; lia.
      * destruct (collides nb hash (N.of_nat h)); [exfalso; apply R; by apply C|].
        rewrite N.lor_0_r. by apply mapsTo_bin; [|lia|].
  - intros i h L. eapply siRun_cell_other; [apply siInit_shape|exact E|].
    intros v (x & Hx & Hm & _)%M. apply lookup_lt_Some in Hx. lia.
Qed.

(** ** When the stores stay in range *)

Definition binSpace (s : SIndex) (b : nat) : option nat :=
  match siSizes s !! b, siBins s !! b with
  | Some n, Some row => Some (length row - N.to_nat n)%nat
  | _, _ => None
  end.

Definition inMap (s : SIndex) (i h : nat) : Prop := is_Some (mapCell s i h).

Lemma siExec_space s o s' b k : shapeOK s -> siExec s o = Some s' -> binSpace s b = Some k ->
  binSpace s' b = Some (k - length (putsAt b [o]))%nat.
Proof.
  intros S E. unfold binSpace. destruct o as [b0 i h c|r h v].
  - destruct (siExec_put _ _ _ _ _ _ S E) as (n & row & H1 & H2 & H3 & HB & HS & _).
    rewrite HB, HS. unfold putsAt. simpl. destruct (decide (N.to_nat b0 = b)) as [<-|Hne].
    + rewrite !list_lookup_insert by eauto using lookup_lt_Some. rewrite H1, H2. intros [= <-].
      rewrite insert_length. f_equal. simpl. lia.
    + rewrite !list_lookup_insert_ne by done. simpl. destruct (siSizes s !! b), (siBins s !! b); try done.
      intros [= <-]. f_equal. lia.
  - destruct (siExec_map _ _ _ _ _ E) as (row & _ & _ & HB & HS & _). rewrite HB, HS.
    unfold putsAt. simpl. destruct (siSizes s !! b), (siBins s !! b); try done.
    intros [= <-]. f_equal. lia.
Qed.

Lemma siExec_inMap s o s' i h : shapeOK s -> siExec s o = Some s' -> inMap s i h -> inMap s' i h.
Proof.
  intros S E M. unfold inMap. rewrite (siExec_cell _ _ _ _ _ S E).
  destruct (toMap o) as [[[i' h'] v]|]; [|done]. destruct (decide _); [eauto|done].
Qed.

Lemma siRun_ok ops : forall s, shapeOK s ->
  (forall b e, (b, e) ∈ omap toPut ops -> exists k, binSpace s (N.to_nat b) = Some k /\
     (length (putsAt (N.to_nat b) ops) <= k)%nat) ->
  (forall i h v, (i, h, v) ∈ omap toMap ops -> inMap s i h) ->
  exists s', siRun s ops = Some s'.
Proof.
  induction ops as [|o ops IH]; intros s S HP HM; [by eexists|]. cbn [siRun].
  assert (exists s1, siExec s o = Some s1) as [s1 E1].
  { destruct o as [b i h c|r h v]; simpl.
    - destruct (HP b (i, h, c)) as (k & Hk & Hl); [simpl; left|].
      unfold binSpace in Hk. destruct (siSizes s !! N.to_nat b) as [n|] eqn:E1; [|done].
      destruct (siBins s !! N.to_nat b) as [row|] eqn:E2; [|done]. injection Hk as <-.
      rewrite (proj2 (readN_Some _ _ _) E1), (proj2 (readN_Some _ _ _) E2).
      unfold putsAt in Hl. simpl in Hl. rewrite decide_True in Hl by done. simpl in Hl.
      destruct (writeN row n (itemWord i h c)) as [row'|] eqn:E3; [by eexists|].
      unfold writeN in E3. destruct (N.ltb_spec n (N.of_nat (length row))); [done|lia].
    - specialize (HM (N.to_nat r) (N.to_nat h) v ltac:(simpl; left)).
      unfold inMap, mapCell in HM. destruct (siMap s !! N.to_nat r) as [row|] eqn:E; [|by destruct HM].
      rewrite (proj2 (readN_Some _ _ _) E). destruct HM as [w Hw]. apply lookup_lt_Some in Hw.
      destruct (writeN row h v) as [row'|] eqn:E3; [by eexists|].
      unfold writeN in E3. destruct (N.ltb_spec h (N.of_nat (length row))); [done|lia]. }
  rewrite E1. apply IH; [by eapply siExec_shape| |].
  - intros b e Hin. destruct (HP b e) as (k & Hk & Hl).
    { simpl. destruct (toPut o); [by right|done]. }
    exists (k - length (putsAt (N.to_nat b) [o]))%nat. split; [by eapply siExec_space|].
    assert (putsAt (N.to_nat b) (o :: ops) = putsAt (N.to_nat b) [o] ++ putsAt (N.to_nat b) ops) as Ea.
    { unfold putsAt. by rewrite <- omap_app. }
    rewrite Ea, app_length in Hl. lia.
  - intros i h v Hin. eapply siExec_inMap; [done|done|]. apply (HM i h v).
    simpl. destruct (toMap o); [by right|done].
Qed.

Lemma filter_length_sublist {A} (P : A -> Prop) `{forall x, Decision (P x)} (l1 l2 : list A) :
  sublist l1 l2 -> (length (filter P l1) <= length (filter P l2))%nat.
Proof.
  induction 1 as [|x l1 l2 _ IH|x l1 l2 _ IH]; [done| |];
    rewrite ?filter_cons; destruct (decide (P x)); simpl; lia.
Qed.

Lemma allPuts_load nb H l b : 0 < nb -> H <= 5 ->
  length (omap (sel b) (allPuts nb H l)) = binLoad nb H l.*2 (N.of_nat b).
Proof.
  intros Hn HH. unfold binLoad, allPuts. change (map N.of_nat (seq 0 (N.to_nat H))) with (hs H).
  assert (forall h, h ∈ hs H -> h <= 4) as Hb by (intros h Hh%elem_of_hs; lia).
  revert Hb. generalize (hs H) as q. intros q Hb.
  induction l as [|[i hash] l IH]; [done|]. cbn [map concat].
  rewrite omap_app, app_length, IH. cbn [fmap list_fmap list_prod fst snd].
  rewrite filter_app, app_length. f_equal. clear IH.
  induction q as [|h q IHq]; [done|].
  assert (forall h, h ∈ q -> h <= 4) as Hb' by (intros; apply Hb; by right). specialize (IHq Hb').
  assert (binOf nb hash h = ((hash / 2 ^ (16 * h)) mod 2 ^ 64) mod nb) as Eb.
  { apply binOf_mapsTo; [done| |done]. apply Hb. left. }
  cbn [map]. rewrite filter_cons. cbn [fst snd]. rewrite <- Eb.
  assert (forall r, omap (sel b) (putE nb i hash h :: r) =
    if decide (N.to_nat (binOf nb hash h) = b) then (i, h, collides nb hash h) :: omap (sel b) r else omap (sel b) r) as ->.
  { intros r. simpl. unfold sel at 1. cbn [putE fst snd]. by destruct (decide _). }
  destruct (decide (N.to_nat (binOf nb hash h) = b)), (decide (binOf nb hash h = N.of_nat b)); cbn [length]; try lia.
Qed.

Lemma itemsOf_snd enc xs : (itemsOf enc xs).*2 = map (fun x => N.lxor (enc x) x) xs.
Proof.
  unfold itemsOf. apply list_eq. intros k. rewrite !list_lookup_fmap, list_lookup_imap.
  by destruct (xs !! k).
Qed.

Lemma itemsOf_length enc xs : length (itemsOf enc xs) = length xs.
Proof. apply imap_length. Qed.

Lemma run_defined enc nb nballs H mx xs m ops :
  0 < nb -> H <= 5 -> (length xs <= N.to_nat nballs)%nat ->
  omap toPut ops ≡ₚ allPuts nb H (take m (itemsOf enc xs)) ->
  (forall e, e ∈ omap toMap ops -> e ∈ allMaps nb H (take m (itemsOf enc xs))) ->
  (forall b, (binLoad nb H (map (fun x => N.lxor (enc x) x) xs) b <= N.to_nat mx)%nat) ->
  exists s', siRun (siInit nb nballs H mx) ops = Some s'.
Proof.
  intros Hnb HH Hlen P M L. apply siRun_ok; [apply siInit_shape| |].
  - intros b e Hin. rewrite P in Hin. exists (N.to_nat mx).
    assert ((e.1.1, e.1.2, e.2) ∈ omap (sel (N.to_nat b)) (allPuts nb H (take m (itemsOf enc xs)))) as Hin'.
    { apply elem_of_list_omap. exists (b, e). split; [done|]. unfold sel. simpl.
      rewrite decide_True by done. by destruct e as [[??]?]. }
    apply elem_allPuts in Hin' as (hash & Hi & Hh & Hb & _).
    pose proof (binOf_lt nb hash e.1.2 Hnb ltac:(lia)) as Hlt.
    split.
    + unfold binSpace. simpl. rewrite !lookup_replicate_2 by lia. f_equal. rewrite replicate_length. lia.
    + rewrite putsAt_sel. rewrite (Permutation_length (omap_Permutation (sel (N.to_nat b)) _ _ P)).
      rewrite allPuts_load by done. etrans; [|apply (L b)].
      rewrite N2Nat.id. unfold binLoad. apply filter_length_sublist.
      rewrite fmap_take, itemsOf_snd.
      rewrite <- (take_drop m (map (fun x => N.lxor (enc x) x) xs)) at 2.
      rewrite <- (app_nil_r (list_prod _ _)) at 1.
      assert (forall (l1 l2 : list N) q, list_prod (l1 ++ l2) q = list_prod l1 q ++ list_prod l2 q) as ->.
      { intros l1 l2 q. induction l1; simpl; [done|]. by rewrite <- app_assoc, IHl1. }
      apply sublist_app; [done|apply sublist_nil_l].
  - intros i h v Hin%M. unfold allMaps in Hin. apply elem_of_concat in Hin as (l & Hl & Hin).
    apply elem_of_list_fmap in Hin as ([i0 hash] & -> & Hi).
    apply elem_of_list_fmap in Hl as (h0 & E0 & Hh). injection E0 as -> -> ->.
    apply elem_itemsOf in Hi as (x & Hx & _). apply lookup_lt_Some in Hx. apply elem_of_hs in Hh.
    unfold inMap, mapCell. simpl in *. rewrite lookup_replicate_2 by lia.
    rewrite lookup_replicate_2 by lia. by eexists.
Qed.

(** ** The insertion, three hash functions *)

Lemma simple3 enc nb nballs mx xs s' :
  0 < nb -> nb < 2 ^ 64 -> N.of_nat (length xs) <= 2 ^ 56 ->
  siInsert enc (siInit nb nballs 3 mx) xs = Done s' ->
  (forall b, NoDup (binEntries s' b) /\
     forall i h c, (i, h, c) ∈ binEntries s' b <->
       exists x, xs !! N.to_nat i = Some x /\ (N.to_nat i < 8 * (length xs / 8) + 1)%nat /\ h < 3 /\
         mapsTo nb (N.lxor (enc x) x) h (N.of_nat b) /\ (c = true <-> repeats nb (N.lxor (enc x) x) h)) /\
  (forall i h x, xs !! i = Some x -> (i < 8 * (length xs / 8) + 1)%nat -> (h < 3)%nat ->
     exists v, mapCell s' i h = Some v /\
       (repeats nb (N.lxor (enc x) x) (N.of_nat h) -> v = 2 ^ 64 - 1) /\
       (~ repeats nb (N.lxor (enc x) x) (N.of_nat h) -> mapsTo nb (N.lxor (enc x) x) (N.of_nat h) v)).
Proof.
  intros Hnb H64 Hlen. unfold siInsert. cbn [siInit siNumBins siH]. change (3 =? 3) with true.
  rewrite (proj2 (N.eqb_neq nb 0)) by lia. cbn [orb]. change (5 <? 3) with false. cbv iota.
  destruct (siRun _ _) as [s|] eqn:E; [|done]. intros [= <-].
  destruct (main3_stores nb (length xs / 8) (itemsOf enc xs)) as [P M]. split.
  - intros b. eapply run_entries; [done|done|done|exact P|exact E].
  - intros i h x Hx Hm Hh.
    edestruct (run_cells enc nb nballs 3 mx xs (8 * (length xs / 8) + 1)) as [C _]; [done|done|done| |exact E|].
    + intros e. unfold itemsOf in M. by rewrite M.
    + by apply C.
Qed.

Lemma simple3_defined enc nb nballs mx xs :
  0 < nb -> (length xs <= N.to_nat nballs)%nat ->
  (forall b, (binLoad nb 3 (map (fun x => N.lxor (enc x) x) xs) b <= N.to_nat mx)%nat) ->
  exists s', siInsert enc (siInit nb nballs 3 mx) xs = Done s'.
Proof.
  intros Hnb Hlen L. unfold siInsert. cbn [siInit siNumBins siH]. change (3 =? 3) with true.
  rewrite (proj2 (N.eqb_neq nb 0)) by lia. cbn [orb]. change (5 <? 3) with false. cbv iota.
  destruct (main3_stores nb (length xs / 8) (itemsOf enc xs)) as [P M].
  destruct (run_defined enc nb nballs 3 mx xs (8 * (length xs / 8) + 1) (main3 nb (length xs / 8) (itemsOf enc xs)))
    as [s' E]; try done.
  - intros e. by rewrite M.
  - exists s'. unfold itemsOf in E. by rewrite E.
Qed.

Lemma simpleN enc nb nballs H mx xs s' :
  0 < nb -> nb < 2 ^ 64 -> H <= 5 -> H ≠ 3 -> N.of_nat (length xs) <= 2 ^ 56 ->
  siInsert enc (siInit nb nballs H mx) xs = Done s' ->
  (forall b, NoDup (binEntries s' b) /\
     forall i h c, (i, h, c) ∈ binEntries s' b <->
       exists x, xs !! N.to_nat i = Some x /\ h < H /\
         mapsTo nb (N.lxor (enc x) x) h (N.of_nat b) /\ (c = true <-> repeats nb (N.lxor (enc x) x) h)) /\
  ((length xs <= 8)%nat ->
   (forall i h x, xs !! i = Some x -> (h < N.to_nat H)%nat ->
     exists v, mapCell s' i h = Some v /\
       (repeats nb (N.lxor (enc x) x) (N.of_nat h) -> v = 2 ^ 64 - 1) /\
       (~ repeats nb (N.lxor (enc x) x) (N.of_nat h) -> mapsTo nb (N.lxor (enc x) x) (N.of_nat h) v)) /\
   (forall i h, (length xs <= i)%nat -> mapCell s' i h = mapCell (siInit nb nballs H mx) i h)).
Proof.
  intros Hnb H64 HH H3 Hlen. unfold siInsert. cbn [siInit siNumBins siH].
  rewrite (proj2 (N.eqb_neq nb 0)) by lia. cbn [orb]. rewrite (proj2 (N.ltb_ge 5 H)) by done.
  rewrite (proj2 (N.eqb_neq H 3)) by done. cbv iota.
  destruct (siRun _ _) as [s|] eqn:E; [|done]. intros [= <-]. fold (itemsOf enc xs) in E.
  split.
  - intros b. edestruct (run_entries enc nb nballs H mx xs (length xs)) as [N I]; [exact Hnb|exact HH|exact Hlen| |exact E|].
    { rewrite (take_ge (itemsOf enc xs)) by (by rewrite itemsOf_length).
      rewrite mainN_puts; [done|]. rewrite itemsOf_length. lia. }
    split; [done|]. intros i h c. rewrite I. split.
    + intros (x & ? & _ & ?). by exists x.
    + intros (x & Hx & ?). exists x. split; [done|]. split; [|done]. by apply lookup_lt_Some in Hx.
  - intros L8.
    edestruct (run_cells enc nb nballs H mx xs (length xs)) as [C1 C2]; [exact Hnb|exact HH|exact H64| |exact E|].
    { intros e. rewrite (take_ge (itemsOf enc xs)) by (by rewrite itemsOf_length).
      rewrite mainN_maps; [|rewrite itemsOf_length; lia|by rewrite itemsOf_length].
      unfold allMaps. replace (map (fun l : N * N => map (mapE nb (l.1 + 0) l.2) (hs H)) (itemsOf enc xs))
      with (map (fun l : N * N => map (mapE nb l.1 l.2) (hs H)) (itemsOf enc xs)); [done|].
    apply map_ext. intros a. by rewrite N.add_0_r. }
    split.
    + intros i h x Hx Hh. apply C1; [done| |done]. by apply lookup_lt_Some in Hx.
    + intros i h Hi. apply C2. by right.
Qed.

Lemma simpleN_defined enc nb nballs H mx xs :
  0 < nb -> H <= 5 -> H ≠ 3 -> (length xs <= 8)%nat -> (length xs <= N.to_nat nballs)%nat ->
  (forall b, (binLoad nb H (map (fun x => N.lxor (enc x) x) xs) b <= N.to_nat mx)%nat) ->
  exists s', siInsert enc (siInit nb nballs H mx) xs = Done s'.
Proof.
  intros Hnb HH H3 L8 Hlen L. unfold siInsert. cbn [siInit siNumBins siH].
  rewrite (proj2 (N.eqb_neq nb 0)) by lia. cbn [orb]. rewrite (proj2 (N.ltb_ge 5 H)) by done.
  rewrite (proj2 (N.eqb_neq H 3)) by done. cbv iota.
  destruct (run_defined enc nb nballs H mx xs (length xs) (mainN nb H (length xs) 0 (itemsOf enc xs)))
    as [s' E]; try done.
  - rewrite (take_ge (itemsOf enc xs)) by (by rewrite itemsOf_length).
    rewrite mainN_puts; [done|]. rewrite itemsOf_length. lia.
  - intros e. rewrite (take_ge (itemsOf enc xs)) by (by rewrite itemsOf_length).
    rewrite mainN_maps; [|rewrite itemsOf_length; lia|by rewrite itemsOf_length].
    unfold allMaps. replace (map (fun l : N * N => map (mapE nb (l.1 + 0) l.2) (hs H)) (itemsOf enc xs))
      with (map (fun l : N * N => map (mapE nb l.1 l.2) (hs H)) (itemsOf enc xs)); [done|].
    apply map_ext. intros a. by rewrite N.add_0_r.
  - exists s'. unfold itemsOf in E. by rewrite E.
Qed.
