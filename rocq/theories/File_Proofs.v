(** Set files, output files and the start of a session. *)
From Verif Require Import Base Bgi_Proofs File_Model File_Spec.

(** ** Bytes *)

Lemma bytesLE_S n b : bytesLE (S n) b = b mod 256 :: bytesLE n (b / 256).
Proof.
  unfold bytesLE. cbn [seq map]. f_equal.
  - change (8 * N.of_nat 0) with 0. change (2 ^ 0) with 1. by rewrite N.div_1_r.
  - rewrite <- seq_shift, map_map. apply map_ext. intros j. rewrite N.div_div by (try apply N.pow_nonzero; done).
    f_equal. f_equal. change 256 with (2 ^ 8). rewrite <- N.pow_add_r. f_equal. lia.
Qed.
Lemma leBytes_bytesLE n : forall b, b < 2 ^ (8 * N.of_nat n) -> leBytes (bytesLE n b) = b.
Proof.
  induction n as [|n IH]; intros b Hb; [change (2 ^ (8 * N.of_nat 0)) with 1 in Hb; cbn; lia|].
  rewrite bytesLE_S. cbn [leBytes]. rewrite IH; [lia|].
  replace (8 * N.of_nat (S n)) with (8 + 8 * N.of_nat n) in Hb by lia. rewrite N.pow_add_r in Hb. change (2 ^ 8) with 256 in Hb.
  apply N.div_lt_upper_bound; lia.
Qed.
Lemma bytesLE_leBytes l : Forall (fun b => b < 256) l -> bytesLE (length l) (leBytes l) = l /\ leBytes l < 2 ^ (8 * N.of_nat (length l)).
Proof.
  induction 1 as [|b l Hb _ [IH1 IH2]]; [done|]. cbn [length leBytes]. rewrite bytesLE_S. split.
  - f_equal; [lia|]. etrans; [|exact IH1]. f_equal. lia.
  - replace (8 * N.of_nat (S (length l))) with (8 + 8 * N.of_nat (length l)) by lia. rewrite N.pow_add_r. change (2 ^ 8) with 256. lia.
Qed.
Lemma bytesLE_length n b : length (bytesLE n b) = n.
Proof. unfold bytesLE. by rewrite map_length, seq_length. Qed.

Lemma readBlocks_ok n : forall file, length file = (16 * n)%nat -> Forall (fun b => b < 256) file ->
  length (readBlocks n file) = n /\ concat (map (bytesLE 16) (readBlocks n file)) = file /\ Forall (fun b => b < 2 ^ 128) (readBlocks n file).
Proof.
  induction n as [|n IH]; intros file L F; cbn [readBlocks].
  - assert (file = []) as -> by (apply nil_length_inv; lia). done.
  - assert (Forall (fun b => b < 256) (take 16 file)) as F1 by (by apply Forall_take).
    assert (length (take 16 file) = 16%nat) as L1 by (rewrite take_length; lia).
    destruct (bytesLE_leBytes _ F1) as [E1 B1]. rewrite L1 in E1, B1.
    destruct (IH (drop 16 file)) as (E2 & E3 & E4); [rewrite drop_length; lia|by apply Forall_drop|].
    cbn [length map concat]. split; [by rewrite E2|]. split; [by rewrite E1, E3, take_drop|]. by constructor.
Qed.

Lemma readBlocks_concat blocks : Forall (fun b => b < 2 ^ 128) blocks ->
  readBlocks (length blocks) (concat (map (bytesLE 16) blocks)) = blocks.
Proof.
  induction 1 as [|b blocks Hb _ IH]; [done|]. cbn [length readBlocks map concat].
  rewrite take_app_alt by (by rewrite bytesLE_length). rewrite drop_app_alt by (by rewrite bytesLE_length).
  by rewrite leBytes_bytesLE, IH.
Qed.

Lemma concat_bytes_length n blocks : length (concat (map (bytesLE n) blocks)) = (n * length blocks)%nat.
Proof. induction blocks as [|b blocks IH]; cbn [map concat length]; [lia|]. rewrite app_length, bytesLE_length, IH. lia. Qed.

Lemma readSet_bin ro blocks : Forall (fun b => b < 2 ^ 128) blocks ->
  readSet ro (concat (map (bytesLE 16) blocks)) Bin false = Done blocks.
Proof.
  intros F. unfold readSet. rewrite concat_bytes_length. rewrite Nat.mul_comm, Nat.mod_mul, Nat.div_mul by done. cbn [andb Nat.eqb].
  by rewrite readBlocks_concat.
Qed.
Lemma readSet_bin_any ro file : Forall (fun b => b < 256) file ->
  if (length file mod 16 =? 0)%nat
  then exists blocks, readSet ro file Bin false = Done blocks /\ concat (map (bytesLE 16) blocks) = file /\ Forall (fun b => b < 2 ^ 128) blocks
  else readSet ro file Bin false = Thrown [].
Proof.
  intros F. unfold readSet. destruct (Nat.eqb_spec (length file mod 16) 0) as [E|]; [|done].
  pose proof (Nat.div_mod (length file) 16 ltac:(lia)) as D.
  destruct (readBlocks_ok (length file / 16) file) as (_ & H1 & H2); [lia|done|]. eexists. split; [reflexivity|]. done.
Qed.

Lemma writeOutput_bin l : length (writeOutput Bin l) = (8 * length l)%nat /\
  forall i x j, l !! i = Some x -> (j < 8)%nat -> writeOutput Bin l !! (8 * i + j)%nat = Some ((x / 2 ^ (8 * N.of_nat j)) mod 256).
Proof.
  unfold writeOutput. split; [apply (concat_bytes_length 8)|].
  induction l as [|y l IH]; intros i x j Hi Hj; [done|]. cbn [map concat]. destruct i as [|i].
  - injection Hi as ->. rewrite Nat.mul_0_r, Nat.add_0_l. rewrite lookup_app_l by (unfold u64Bytes; by rewrite map_length, seq_length).
    unfold u64Bytes. by rewrite lookup_map_seq.
  - rewrite lookup_app_r by (unfold u64Bytes; rewrite map_length, seq_length; lia).
    unfold u64Bytes at 1. rewrite map_length, seq_length. rewrite <- (IH i x j Hi Hj). f_equal. lia.
Qed.

(** ** Hexadecimal rows *)

Definition IsHexRow (row : list N) : Prop := length row = 32%nat /\ Forall (fun c => isxdigit c = true) row.
Global Instance IsHexRow_dec row : Decision (IsHexRow row).
Proof. unfold IsHexRow. apply _. Defined.

Lemma allDigits_ok n : forall i buff ret, (i + n = length buff)%nat ->
  allDigits i n buff ret = Some (ret && forallb isxdigit (drop i buff)).
Proof.
  induction n as [|n IH]; intros i buff ret H; cbn [allDigits].
  - rewrite drop_ge by lia. cbn. by rewrite andb_true_r.
  - destruct (lookup_lt_is_Some_2 buff i) as [c Hc]; [lia|]. rewrite Hc, IH by lia.
    rewrite (drop_S _ _ _ Hc). cbn [forallb]. by rewrite andb_assoc.
Qed.
Lemma isHexBlock_ok row : isHexBlock row = Some (bool_decide (IsHexRow row)).
Proof.
  unfold isHexBlock. destruct (Nat.eqb_spec (length row) 32) as [E|E].
  - rewrite allDigits_ok by lia. rewrite drop_0. cbn [andb]. f_equal. apply eq_bool_prop_intro. rewrite bool_decide_spec. split.
    + intros H. split; [done|]. apply Forall_forall. intros c Hc. apply Is_true_true in H. rewrite forallb_forall in H. apply H.
      by apply elem_of_list_In.
    + intros [_ F]. apply Is_true_true, forallb_forall. intros c Hc. apply elem_of_list_In in Hc. by apply (proj1 (Forall_forall _ _) F).
  - rewrite bool_decide_false; [done|]. by intros [? _].
Qed.

(** Value of the digits, most significant first. *)
Definition hexNum (ds : list N) : N := foldl (fun a d => 16 * a + d) 0 ds.
Lemma hexNum_snoc ds d : hexNum (ds ++ [d]) = 16 * hexNum ds + d.
Proof. unfold hexNum. by rewrite foldl_app. Qed.
Lemma hexNum_lt ds : Forall (fun d => d < 16) ds -> hexNum ds < 16 ^ N.of_nat (length ds).
Proof.
  induction ds as [|d ds IH] using rev_ind; intros F; [done|]. apply Forall_app in F as [F Fd]. apply Forall_inv in Fd.
  rewrite hexNum_snoc, app_length. cbn [length]. specialize (IH F).
  replace (N.of_nat (length ds + 1)) with (N.succ (N.of_nat (length ds))) by lia. rewrite N.pow_succ_r'. lia.
Qed.
Lemma hexNum_digit ds : Forall (fun d => d < 16) ds -> forall i d, ds !! i = Some d ->
  (hexNum ds / 16 ^ N.of_nat (length ds - 1 - i)) mod 16 = d.
Proof.
  induction ds as [|e ds IH] using rev_ind; intros F i d Hi; [done|]. apply Forall_app in F as [F Fd]. apply Forall_inv in Fd.
  rewrite hexNum_snoc, app_length. cbn [length]. destruct (decide (i < length ds)%nat) as [L|L].
  - rewrite lookup_app_l in Hi by done. rewrite <- (IH F i d Hi).
    replace (N.of_nat (length ds + 1 - 1 - i)) with (N.succ (N.of_nat (length ds - 1 - i))) by lia.
    rewrite N.pow_succ_r', <- N.div_div by (try apply N.pow_nonzero; done). f_equal. f_equal. lia.
  - rewrite lookup_app_r in Hi by lia. destruct (i - length ds)%nat as [|] eqn:E; [|done]. injection Hi as <-.
    replace (length ds + 1 - 1 - i)%nat with 0%nat by lia. change (16 ^ N.of_nat 0) with 1. rewrite N.div_1_r. lia.
Qed.

Lemma hexVal_lt c d : hexVal c = Some d -> d < 16.
Proof. unfold hexVal. repeat case_match; intros [= <-]; lia. Qed.
Lemma hexVal_digit c d : hexVal c = Some d -> hexDigit d = lower c.
Proof. unfold hexVal. repeat case_match; intros [= <-]; unfold hexDigit, lower; repeat case_match; lia. Qed.

Lemma digits_of row : Forall (fun c => isxdigit c = true) row -> exists ds, Forall2 (fun c d => hexVal c = Some d) row ds.
Proof.
  induction 1 as [|c row Hc _ [ds IH]]; [by exists []|]. unfold isxdigit in Hc. destruct (hexVal c) as [d|] eqn:E; [|done].
  exists (d :: ds). by constructor.
Qed.

Lemma hexToBlock_num row ds : length row = 32%nat -> Forall2 (fun c d => hexVal c = Some d) row ds ->
  hexToBlock row = Some (hexNum ds).
Proof.
  intros L F. unfold hexToBlock.
  assert (exists vv, hexLoop 16 0 row (replicate 16 0) = Some vv /\ leBytes vv = hexNum ds) as (vv & -> & ->); [|done].
  do 32 (destruct F as [|? ? ? ? ? F]; [cbn in L; lia|]).
  destruct F as [|]; [|cbn in L; lia]. clear L.
  eexists. split; [reflexivity|]. cbn [Nat.sub insert list_insert replicate leBytes].
  unfold strtol2.
  repeat match goal with H : hexVal ?c = Some ?d |- _ => rewrite H; apply hexVal_lt in H end.
  unfold hexNum. cbn [foldl].
  rewrite !N.mod_small by lia. lia.
Qed.

Lemma hexToBlock_ok row : IsHexRow row -> exists b, hexToBlock row = Some b /\ b < 2 ^ 128 /\ blockText b = map lower row.
Proof.
  intros [L F]. destruct (digits_of row F) as [ds Hds]. exists (hexNum ds). split; [by apply hexToBlock_num|].
  pose proof (Forall2_length _ _ _ Hds) as Ld.
  assert (Forall (fun d => d < 16) ds) as Fd.
  { apply Forall_forall. intros d Hd. apply elem_of_list_lookup in Hd as [i Hi].
    destruct (Forall2_lookup_r _ _ _ _ _ Hds Hi) as (c & _ & Hc). by apply (hexVal_lt c). }
  split.
  - pose proof (hexNum_lt ds Fd) as B. rewrite <- Ld, L in B. exact B.
  - unfold blockText. apply list_eq_same_length with (n := 32%nat); [by rewrite map_length|by rewrite map_length, seq_length|].
    intros i a b Hi Ha Hb. rewrite lookup_map_seq in Ha by done. injection Ha as <-.
    rewrite (list_lookup_fmap lower) in Hb. destruct (row !! i) as [c|] eqn:Hc; [|done]. injection Hb as <-.
    destruct (Forall2_lookup_l _ _ _ _ _ Hds Hc) as (d & Hd & Hcd).
    pose proof (hexNum_digit ds Fd i d Hd) as E. rewrite <- Ld, L in E. change (32 - 1 - i)%nat with (31 - i)%nat in E.
    rewrite E. by apply hexVal_digit.
Qed.

Lemma hexDigit_inj a b : a < 16 -> b < 16 -> hexDigit a = hexDigit b -> a = b.
Proof. unfold hexDigit. intros Ha Hb. destruct (N.ltb_spec a 10), (N.ltb_spec b 10); lia. Qed.
Lemma digits_eq n : forall a b, a < 16 ^ N.of_nat n -> b < 16 ^ N.of_nat n ->
  (forall i, (i < n)%nat -> (a / 16 ^ N.of_nat i) mod 16 = (b / 16 ^ N.of_nat i) mod 16) -> a = b.
Proof.
  induction n as [|n IH]; intros a b Ha Hb H; [change (16 ^ N.of_nat 0) with 1 in *; lia|].
  assert (16 ^ N.of_nat (S n) = 16 * 16 ^ N.of_nat n) as E.
  { replace (N.of_nat (S n)) with (N.succ (N.of_nat n)) by lia. apply N.pow_succ_r'. }
  rewrite E in Ha, Hb. assert (a / 16 = b / 16) as Q.
  { apply IH; [apply N.div_lt_upper_bound; lia|apply N.div_lt_upper_bound; lia|]. intros i Hi.
    specialize (H (S i) ltac:(lia)). replace (N.of_nat (S i)) with (N.succ (N.of_nat i)) in H by lia.
    rewrite N.pow_succ_r', <- !N.div_div in H by (try apply N.pow_nonzero; done). exact H. }
  specialize (H 0%nat ltac:(lia)). change (16 ^ N.of_nat 0) with 1 in H. rewrite !N.div_1_r in H. lia.
Qed.
Lemma blockText_inj a b : a < 2 ^ 128 -> b < 2 ^ 128 -> blockText a = blockText b -> a = b.
Proof.
  intros Ha Hb H. apply (digits_eq 32); [exact Ha|exact Hb|]. intros i Hi.
  assert (blockText a !! (31 - i)%nat = blockText b !! (31 - i)%nat) as E by (by rewrite H).
  unfold blockText in E. rewrite !lookup_map_seq in E by lia. injection E as E.
  replace (31 - (31 - i))%nat with i in E by lia. apply hexDigit_inj in E; [done| |]; apply N.mod_lt; done.
Qed.

(** ** Rows *)

(** What a row is read as. *)
Definition RowBlock (ro : list N -> N) (row : list N) (b : N) : Prop :=
  if decide (IsHexRow row) then b < 2 ^ 128 /\ blockText b = map lower row else b = ro row.

Lemma lineOf_row row : 10 ∉ row -> forall rest, lineOf (row ++ 10 :: rest) = (row, rest).
Proof.
  induction row as [|c row IH]; intros H rest; [done|]. apply not_elem_of_cons in H as [Hc H]. cbn [app lineOf].
  destruct (N.eqb_spec c 10) as [->|_]; [done|]. by rewrite IH.
Qed.
Lemma lineOf_end row : 10 ∉ row -> lineOf row = (row, []).
Proof.
  induction row as [|c row IH]; intros H; [done|]. apply not_elem_of_cons in H as [Hc H]. cbn [lineOf].
  destruct (N.eqb_spec c 10) as [->|_]; [done|]. by rewrite IH.
Qed.

Lemma csvStep ro f row rest text ret : getline text = Some (row, rest) ->
  exists b, RowBlock ro row b /\ csvLoop ro (S f) text ret = csvLoop ro f rest (ret ++ [b]).
Proof.
  intros E. unfold RowBlock. cbn [csvLoop]. rewrite E, isHexBlock_ok. destruct (decide (IsHexRow row)) as [H|H].
  - rewrite bool_decide_true by done. destruct (hexToBlock_ok row H) as (b & -> & Hb). by exists b.
  - rewrite bool_decide_false by done. by exists (ro row).
Qed.

Lemma csvLoop_unlines ro rows : Forall (fun r => 10 ∉ r) rows -> forall f ret, (length (unlines rows) <= f)%nat ->
  exists bs, csvLoop ro f (unlines rows) ret = Done (ret ++ bs) /\ Forall2 (RowBlock ro) rows bs.
Proof.
  induction 1 as [|r rows Hr _ IH]; intros f ret Hf.
  - exists []. rewrite app_nil_r. destruct f; done.
  - assert (unlines (r :: rows) = r ++ 10 :: unlines rows) as E by (unfold unlines; cbn [map concat]; by rewrite <- app_assoc).
    rewrite E in *. rewrite app_length in Hf. cbn [length] in Hf. destruct f as [|f]; [lia|].
    assert (getline (r ++ 10 :: unlines rows) = Some (r, unlines rows)) as G.
    { unfold getline. rewrite lineOf_row by done. by destruct r. }
    destruct (csvStep ro f r _ _ ret G) as (b & Hb & ->). destruct (IH f (ret ++ [b])) as (bs & -> & F); [lia|].
    exists (b :: bs). rewrite <- app_assoc. split; [done|]. by constructor.
Qed.
Lemma csvLoop_join ro rows : Forall (fun r => 10 ∉ r) rows -> last rows ≠ Some [] -> forall f ret, (length (joinLines rows) <= f)%nat ->
  exists bs, csvLoop ro f (joinLines rows) ret = Done (ret ++ bs) /\ Forall2 (RowBlock ro) rows bs.
Proof.
  induction 1 as [|r rows Hr Frows IH]; intros HL f ret Hf.
  - exists []. rewrite app_nil_r. destruct f; done.
  - destruct rows as [|r2 rows].
    + cbn [joinLines] in *. assert (r ≠ []) as Hne by (intros ->; done).
      assert (getline r = Some (r, [])) as G by (unfold getline; rewrite lineOf_end by done; by destruct r).
      destruct f as [|f]; [destruct r; [done|cbn in Hf; lia]|].
      destruct (csvStep ro f r _ _ ret G) as (b & Hb & ->). exists [b]. split; [by destruct f|]. by repeat constructor.
    + change (joinLines (r :: r2 :: rows)) with (r ++ 10 :: joinLines (r2 :: rows)) in *.
      rewrite app_length in Hf. cbn [length] in Hf. destruct f as [|f]; [lia|].
      assert (getline (r ++ 10 :: joinLines (r2 :: rows)) = Some (r, joinLines (r2 :: rows))) as G.
      { unfold getline. rewrite lineOf_row by done. by destruct r. }
      destruct (csvStep ro f r _ _ ret G) as (b & Hb & ->).
      destruct (IH ltac:(by rewrite last_cons_cons in HL) f (ret ++ [b])) as (bs & -> & F); [lia|].
      exists (b :: bs). rewrite <- app_assoc. split; [done|]. by constructor.
Qed.

Lemma readSet_csv ro rows : Forall (fun r => 10 ∉ r) rows ->
  exists bs, readSet ro (unlines rows) Csv false = Done bs /\ Forall2 (RowBlock ro) rows bs /\
    (last rows ≠ Some [] -> readSet ro (joinLines rows) Csv false = Done bs).
Proof.
  intros F. unfold readSet. destruct (csvLoop_unlines ro rows F _ [] (le_n _)) as (bs & -> & H). exists bs.
  split; [done|]. split; [done|]. intros HL. destruct (csvLoop_join ro rows F HL _ [] (le_n _)) as (bs' & -> & H').
  cbn [andb app]. f_equal. clear - H H'. revert bs' H'. induction H as [|r b rows bs Hb _ IH]; intros bs' H'.
  - by inversion H'.
  - inversion H' as [|? b' ? bs2 Hb' H2]; subst. f_equal; [|by apply IH].
    unfold RowBlock in Hb, Hb'. destruct (decide (IsHexRow r)).
    + destruct Hb as [B1 T1], Hb' as [B2 T2]. apply blockText_inj; [done|done|]. by rewrite T1, T2.
    + by rewrite Hb, Hb'.
Qed.

Lemma readSet_crlf ro rows : Forall (fun r => 10 ∉ r) rows ->
  readSet ro (unlinesCrLf rows) Csv false = Done (map (fun r => ro (r ++ [13])) rows).
Proof.
  intros F. assert (unlinesCrLf rows = unlines (map (fun r => r ++ [13]) rows)) as ->.
  { unfold unlinesCrLf, unlines. rewrite map_map. f_equal. apply map_ext. intros r. by rewrite <- app_assoc. }
  destruct (readSet_csv ro (map (fun r => r ++ [13]) rows)) as (bs & -> & H & _).
  - apply Forall_fmap. eapply Forall_impl; [exact F|]. intros r Hr. cbn. rewrite elem_of_app, elem_of_list_singleton. naive_solver.
  - f_equal. remember (map _ rows) as rows' eqn:E. revert rows E F. induction H as [|r b rows' bs Hb _ IH]; intros rows E F.
    + by destruct rows.
    + destruct rows as [|r0 rows]; [done|]. injection E as -> ->. apply Forall_cons in F as [F0 F]. cbn [map]. f_equal; [|by apply IH].
      unfold RowBlock in Hb. destruct (decide (IsHexRow (r0 ++ [13]))) as [[_ X]|]; [|done].
      apply Forall_app in X as [_ X]. by apply Forall_inv in X.
Qed.

(** ** Duplicates *)

Lemma dupLoop_le ret : forall seen m, (dupLoop ret seen m <= m)%nat.
Proof.
  induction ret as [|x ret IH]; intros seen m; cbn [dupLoop]; [done|]. destruct (bool_decide (x ∈ seen)).
  - destruct (m - 1)%nat as [|m'] eqn:E; [lia|]. specialize (IH seen (S m')). lia.
  - apply IH.
Qed.
Lemma dupLoop_ok ret : forall seen, NoDup seen -> (dupLoop ret seen 40 = 40%nat <-> NoDup (rev ret ++ seen)).
Proof.
  induction ret as [|x ret IH]; intros seen ND; cbn [dupLoop rev]; [done|].
  rewrite <- app_assoc. cbn [app]. case_bool_decide as Hx.
  - change (40 - 1)%nat with 39%nat. split.
    + intros E. pose proof (dupLoop_le ret seen 39). lia.
    + intros H. apply NoDup_app in H as (_ & _ & H). apply NoDup_cons in H as [H _]. done.
  - apply IH. by constructor.
Qed.
Lemma readSet_debug ro file ft : readSet ro file ft true =
  match readSet ro file ft false with
  | Done set => if decide (NoDup set) then Done set else Thrown []
  | r => r
  end.
Proof.
  assert (forall set, (if true && negb (dupLoop set [] 40 =? 40)%nat then Thrown [] else Done set)
    = if decide (NoDup set) then Done set else Thrown []) as H.
  { intros set. pose proof (dupLoop_ok set [] (NoDup_nil_2)) as E. rewrite app_nil_r in E.
    assert (NoDup (rev set) <-> NoDup set) as R by (split; apply NoDup_perm; [symmetry|]; apply Permutation_rev).
    destruct (Nat.eqb_spec (dupLoop set [] 40) 40) as [X|X], (decide (NoDup set)) as [Y|Y]; cbn; try done; exfalso; tauto. }
  unfold readSet. destruct ft; [|destruct (csvLoop _ _ _ _); try done; apply H|done].
  destruct (length file mod 16 =? 0)%nat; [apply H|done].
Qed.

(** ** Decimal output *)

Lemma foldl_parse l : forall a, Forall (fun c => 48 <= c /\ c <= 57) l ->
  foldl (fun acc c => a ← acc; if (48 <=? c) && (c <=? 57) then Some (10 * a + (c - 48)) else None) (Some a) l
  = Some (foldl (fun a c => 10 * a + (c - 48)) a l).
Proof.
  induction l as [|c l IH]; intros a F; [done|]. apply Forall_cons in F as [[H1 H2] F]. cbn [foldl mbind option_bind].
  destruct (N.leb_spec 48 c), (N.leb_spec c 57); try lia. cbn [andb]. by apply IH.
Qed.
Lemma decLoop_ok f : forall n acc, n < 10 ^ N.of_nat f -> Forall (fun c => 48 <= c /\ c <= 57) acc ->
  Forall (fun c => 48 <= c /\ c <= 57) (decLoop f n acc) /\
  foldl (fun a c => 10 * a + (c - 48)) 0 (decLoop f n acc) = foldl (fun a c => 10 * a + (c - 48)) n acc /\
  (f ≠ 0%nat -> decLoop f n acc ≠ []).
Proof.
  induction f as [|f IH]; intros n acc Hn Fa; cbn [decLoop].
  - change (10 ^ N.of_nat 0) with 1 in Hn. split; [done|]. split; [|done]. f_equal. lia.
  - assert (Forall (fun c => 48 <= c /\ c <= 57) ((48 + n mod 10) :: acc)) as Fa' by (constructor; [lia|done]).
    destruct (N.eqb_spec (n / 10) 0) as [E|E].
    + split; [done|]. split; [|done]. cbn [foldl]. f_equal. lia.
    + destruct (IH (n / 10) ((48 + n mod 10) :: acc)) as (H1 & H2 & H3); [|done|].
      { replace (N.of_nat (S f)) with (N.succ (N.of_nat f)) in Hn by lia. rewrite N.pow_succ_r' in Hn. apply N.div_lt_upper_bound; lia. }
      split; [done|]. split; [rewrite H2; cbn [foldl]; f_equal; lia|]. intros _. apply H3. intros ->.
      change (10 ^ N.of_nat 1) with 10 in Hn. apply E. by apply N.div_small.
Qed.
Lemma decimal_ok n : n < 2 ^ 64 -> parseDecimal (decimal n) = Some n /\ 10 ∉ decimal n.
Proof.
  intros H. unfold decimal. destruct (decLoop_ok 20 n []) as (H1 & H2 & H3); [|done|].
  { eapply N.lt_trans; [exact H|]. done. }
  split.
  - unfold parseDecimal. rewrite bool_decide_false by (by apply H3). rewrite foldl_parse by done. by rewrite H2.
  - intros X. apply (proj1 (Forall_forall _ _) H1) in X. lia.
Qed.

Lemma writeOutput_csv l : Forall (fun i => i < 2 ^ 64) l ->
  exists rows, writeOutput Csv l = unlines rows /\ Forall (fun r => 10 ∉ r) rows /\ map parseDecimal rows = map Some l.
Proof.
  intros F. exists (map decimal l). unfold writeOutput, unlines. rewrite map_map. split; [done|]. split.
  - apply Forall_fmap. eapply Forall_impl; [exact F|]. intros n Hn. by apply decimal_ok.
  - rewrite map_map. induction F as [|n l Hn _ IH]; [done|]. cbn [map]. rewrite IH. f_equal. by apply decimal_ok.
Qed.

(** ** Padding *)

Lemma pad_ok p1 p2 s1 s2 allowed : 
  exists r1 r2 t1 t2, 
    ((padSmallSet p1 s1 (N.of_nat (length s2)) allowed = Done (s1 ++ r1, t1) /\
      padSmallSet p2 s2 (N.of_nat (length s1)) allowed = Done (s2 ++ r2, t2) /\
      N.of_nat (length (s1 ++ r1)) = t2 /\ N.of_nat (length (s2 ++ r2)) = t1 /\ t1 = t2 /\ (r1 = [] \/ r2 = []) /\
      (length s1 ≠ length s2 -> allowed = true))
     \/ (allowed = false /\ length s1 ≠ length s2 /\
         padSmallSet p1 s1 (N.of_nat (length s2)) allowed = Thrown (s1, N.of_nat (length s2)) /\
         padSmallSet p2 s2 (N.of_nat (length s1)) allowed = Thrown (s2, N.of_nat (length s1)))).
Proof.
  unfold padSmallSet. destruct (decide (length s1 = length s2)) as [E|E].
  - exists [], [], (N.of_nat (length s2)), (N.of_nat (length s1)). left. rewrite !app_nil_r, E, N.eqb_refl.
    split; [done|]. split; [done|]. split; [done|]. split; [done|]. split; [done|]. split; [by left|done].
  - destruct (N.eqb_spec (N.of_nat (length s1)) (N.of_nat (length s2))) as [X|_]; [lia|].
    destruct (N.eqb_spec (N.of_nat (length s2)) (N.of_nat (length s1))) as [X|_]; [lia|].
    destruct allowed; cbn [negb]; [|by exists [], [], 0, 0; right].
    destruct (N.ltb_spec (N.of_nat (length s1)) (N.of_nat (length s2))) as [L|L];
      destruct (N.ltb_spec (N.of_nat (length s2)) (N.of_nat (length s1))) as [L'|L']; try lia.
    + exists (map p1 (seq 0 (N.to_nat (N.of_nat (length s2)) - length s1))), [], (N.of_nat (length s2)), (N.of_nat (length s2)).
      left. rewrite app_nil_r. split; [done|]. split; [done|].
      split; [rewrite app_length, map_length, seq_length; lia|]. split; [done|]. split; [done|]. split; [by right|done].
    + exists [], (map p2 (seq 0 (N.to_nat (N.of_nat (length s1)) - length s2))), (N.of_nat (length s1)), (N.of_nat (length s1)).
      left. rewrite app_nil_r. split; [done|]. split; [done|]. split; [done|].
      split; [rewrite app_length, map_length, seq_length; lia|]. split; [done|]. split; [by left|done].
Qed.

(** ** Start of a session *)

Lemma startup_inv ro prng c file their s : startup ro prng c file their = Some s ->
  exists set r, readSet ro file (chooseType c) (cDebug c) = Done set /\ cRole c = Some r /\ (r = 0 \/ r = 1)%Z /\
    (forall n, (if (r =? 0)%Z then cSenderSize c else cReceiverSize c) = Some n -> n = N.of_nat (length set)) /\
    (forall n, (if (r =? 0)%Z then cReceiverSize c else cSenderSize c) = Some n -> n = their) /\
    exists p a b set' sv, s = (p, a, b, set', sv) /\
    match p with
    | Kkrt => set' = set /\ (if (r =? 0)%Z then a = N.of_nat (length set) /\ b = their else a = their /\ b = N.of_nat (length set))
    | _ => a = b /\ a = N.max (N.of_nat (length set)) their /\ take (length set) set' = set /\ N.of_nat (length set') = a /\
           (N.of_nat (length set) ≠ their -> cPad c = true)
    end.
Proof.
  unfold startup. intros H.
  assert (chooseType c ≠ Unspecified) as Hct by (intros X; by rewrite X in H).
  assert (exists set, readSet ro file (chooseType c) (cDebug c) = Done set) as [set Hset].
  { destruct (chooseType c); try done; destruct (readSet _ _ _ _); try done; eauto. }
  assert (match readSet ro file (chooseType c) (cDebug c) with Done set => _ | _ => None end = Some s) as H' by (destruct (chooseType c); [exact H|exact H|done]).
  clear H. rewrite Hset in H'. cbv zeta in H'. exists set.
  destruct (cRole c) as [r|] eqn:Er; [|done]. exists r. change (default 2%Z (Some r)) with r in H'.
  split; [done|]. split; [done|].
  assert (r = 0 \/ r = 1)%Z as Hr.
  { destruct (negb (r =? 0)%Z && negb (r =? 1)%Z) eqn:E; [done|]. lia. }
  split; [done|]. destruct (negb (r =? 0)%Z && negb (r =? 1)%Z); [done|].
  set (mine := if (r =? 0)%Z then cSenderSize c else cReceiverSize c) in *.
  set (theirs := if (r =? 0)%Z then cReceiverSize c else cSenderSize c) in *.
  destruct (N.eqb_spec (N.of_nat (length set)) (default (N.of_nat (length set)) mine)) as [E1|]; [|done].
  destruct (N.eqb_spec their (default their theirs)) as [E2|]; [|done]. cbn [negb] in H'.
  split; [intros n Hn; by rewrite Hn in E1|]. split; [intros n Hn; by rewrite Hn in E2|].
  destruct (cKkrt c).
  { destruct (r =? 0)%Z; injection H' as <-; eexists _, _, _, _, _; (split; [reflexivity|]); done. }
  destruct (cRr17a c || cEcdh c); [|done].
  destruct (padSmallSet prng set their (cPad c)) as [[set' t]|[]| |] eqn:Ep; try done. injection H' as <-.
  assert (take (length set) set' = set /\ N.of_nat (length set') = N.max (N.of_nat (length set)) their /\ (N.of_nat (length set) ≠ their -> cPad c = true)) as (P1 & P2 & P3).
  { unfold padSmallSet in Ep. destruct (N.eqb_spec (N.of_nat (length set)) their) as [E|E].
    - injection Ep as <- <-. rewrite take_ge by done. split; [done|]. split; [lia|done].
    - destruct (cPad c); [|done]. cbn [negb] in Ep. destruct (N.ltb_spec (N.of_nat (length set)) their).
      + injection Ep as <- <-. rewrite take_app. split; [done|]. split; [rewrite app_length, map_length, seq_length; lia|done].
      + injection Ep as <- <-. rewrite take_ge by done. split; [done|]. split; [lia|done]. }
  eexists _, _, _, _, _. split; [reflexivity|]. destruct (cRr17a c); (split; [done|]); (split; [done|]); done.
Qed.

Lemma sessions_agree ro p1 p2 c1 c2 f1 f2 n1 n2 pr a1 b1 s1 v1 a2 b2 s2 v2 :
  cRole c1 = Some 0%Z -> cRole c2 = Some 1%Z ->
  announced ro c1 f1 = Some n1 -> announced ro c2 f2 = Some n2 ->
  startup ro p1 c1 f1 n2 = Some (pr, a1, b1, s1, v1) -> startup ro p2 c2 f2 n1 = Some (pr, a2, b2, s2, v2) ->
  a1 = a2 /\ b1 = b2 /\ N.of_nat (length s1) = a1 /\ N.of_nat (length s2) = b1 /\
  (forall n, cSenderSize c1 = Some n \/ cSenderSize c2 = Some n -> n = n1) /\
  (forall n, cReceiverSize c1 = Some n \/ cReceiverSize c2 = Some n -> n = n2).
Proof.
  intros R1 R2 A1 A2 S1 S2.
  destruct (startup_inv _ _ _ _ _ _ S1) as (set1 & r1 & E1 & R1' & _ & M1 & T1 & q1 & x1 & y1 & z1 & w1 & [= -> -> -> -> ->] & H1).
  destruct (startup_inv _ _ _ _ _ _ S2) as (set2 & r2 & E2 & R2' & _ & M2 & T2 & q2 & x2 & y2 & z2 & w2 & [= -> -> -> -> ->] & H2).
  rewrite R1 in R1'. injection R1' as <-. rewrite R2 in R2'. injection R2' as <-.
  unfold announced in A1, A2. rewrite E1 in A1. rewrite E2 in A2. injection A1 as <-. injection A2 as <-.
  cbn [Z.eqb] in *.
  assert ((forall n, cSenderSize c1 = Some n \/ cSenderSize c2 = Some n -> n = N.of_nat (length set1)) /\
    (forall n, cReceiverSize c1 = Some n \/ cReceiverSize c2 = Some n -> n = N.of_nat (length set2))) as X.
  { split; intros n [Hn|Hn]; naive_solver. }
  destruct q2.
  - destruct H1 as (-> & -> & ->), H2 as (-> & -> & ->). done.
  - destruct H1 as (<- & -> & _ & L1 & _), H2 as (<- & -> & _ & L2 & _). split; [lia|]. split; [lia|]. split; [lia|]. split; [lia|done].
  - destruct H1 as (<- & -> & _ & L1 & _), H2 as (<- & -> & _ & L2 & _). split; [lia|]. split; [lia|]. split; [lia|]. split; [lia|done].
Qed.

Lemma startup_server ro prng c file their p a b set sv : startup ro prng c file their = Some (p, a, b, set, sv) -> exists r, cRole c = Some r /\ sv = negb (default r (cServer c) =? 0)%Z.
Proof.
  unfold startup. intros H.
  assert (exists set0, match cRole c with Some r => r | None => 2%Z end = default 2%Z (cRole c) /\ readSet ro file (chooseType c) (cDebug c) = Done set0) as (set0 & _ & E).
  { destruct (chooseType c); [| |done]; destruct (readSet _ _ _ _); try done; eauto. }
  assert (match readSet ro file (chooseType c) (cDebug c) with Done set => _ | _ => None end = Some (p, a, b, set, sv)) as H' by (destruct (chooseType c); [exact H|exact H|done]).
  clear H. rewrite E in H'. cbv zeta in H'. destruct (cRole c) as [r|]; [|done]. change (default 2%Z (Some r)) with r in H'. exists r. split; [done|].
  destruct (negb (r =? 0)%Z && negb (r =? 1)%Z); [done|]. destruct (negb _) in H'; [done|]. destruct (negb (their =? _)) in H'; [done|].
  destruct (cKkrt c); [destruct (r =? 0)%Z; by injection H'|]. destruct (cRr17a c || cEcdh c); [|done].
  destruct (padSmallSet prng set0 their (cPad c)) as [[set' t]|[]| |]; try done. by injection H'.
Qed.
Lemma server_default ro prng c file their p a b set sv : startup ro prng c file their = Some (p, a, b, set, sv) ->
  (cServer c = None -> (sv = true <-> cRole c = Some 1%Z)) /\ forall v, cServer c = Some v -> (sv = true <-> v <> 0%Z).
Proof.
  intros H. destruct (startup_inv _ _ _ _ _ _ H) as (_ & r & _ & R & RR & _). destruct (startup_server _ _ _ _ _ _ _ _ _ _ H) as (r' & R' & ->).
  rewrite R in R'. injection R' as <-. rewrite R. split.
  - intros ->. change (default r None) with r. rewrite negb_true_iff, Z.eqb_neq. split; [intros X; f_equal; lia|intros [= ->]; lia].
  - intros v ->. change (default r (Some v)) with v. by rewrite negb_true_iff, Z.eqb_neq.
Qed.
