(** Proofs about cuckoo parameter selection. *)
From Coq Require Import QArith Qround Lqa.
From Verif Require Import Base CuckooParams_Model.

Lemma growE_ge sec stat fuel : forall e s r, growE sec stat fuel e s = Some r -> (e <= r)%Z.
Proof.
  induction fuel as [|f IH]; intros e s r; simpl; destruct (Qle_bool stat s).
  - intros [= <-]. reflexivity.
  - done.
  - intros [= <-]. reflexivity.
  - intros H. apply IH in H. lia.
Qed.

Lemma bins_ge (n : N) (e : Q) : (1 <= e)%Q -> (n <= Z.to_N (Qfloor (inject_Z (Z.of_N n) * e)))%N.
Proof.
  intros He.
  assert (Z.of_N n <= Qfloor (inject_Z (Z.of_N n) * e))%Z as Hf; [|lia].
  rewrite <- (Qfloor_Z (Z.of_N n)) at 1. apply Qfloor_resp_le.
  rewrite <- (Qmult_1_r (inject_Z (Z.of_N n))) at 1.
  rewrite !(Qmult_comm (inject_Z (Z.of_N n))). apply Qmult_le_compat_r; [done|].
  change 0%Q with (inject_Z 0). rewrite <- Zle_Qle. lia.
Qed.

Lemma selectParams_ok log2d sec fuel n stat stash hh s :
  (1 <= n)%N -> (0 <= log2d n)%Q ->
  selectParams log2d sec fuel n stat stash hh = Done (Some s) ->
  sHashes s = (if hh =? 0 then 3 else hh)%N /\ sN s = n /\ (n <= selNumBins s)%N /\ (0 < selNumBins s)%N /\
  sStash s = 0%N /\ (stash = 0%N \/ hh = 2%N).
Proof.
  intros Hn Hlog. unfold selectParams. set (h := if hh =? 0 then 3 else hh).
  destruct ((stash =? 0)%N && (h =? 3)%N) eqn:E.
  - apply andb_true_iff in E as [E1 E2]. apply N.eqb_eq in E1, E2.
    intros [= <-]. simpl. rewrite E2.
    assert (n <= selNumBins (mkSelected 0 ((inject_Z (Z.of_N stat) - (- log2d n - 256)) / 240) 3 n))%N as Hb.
    { unfold selNumBins. cbn [sN sScale]. apply bins_ge. apply Qle_shift_div_l; [reflexivity|].
      assert (0 <= inject_Z (Z.of_N stat))%Q as Hs.
      { change 0%Q with (inject_Z 0). rewrite <- Zle_Qle. lia. }
      lra. }
    split_and!; try done; [lia|by left].
  - destruct (N.eqb_spec h 2) as [E2|]; [|done].
    destruct (growE _ _ _ _ _) as [e|] eqn:Eg; [|done]. intros [= <-]. simpl. rewrite E2.
    apply growE_ge in Eg.
    assert (n <= selNumBins (mkSelected 0 (inject_Z e) 2 n))%N as Hb.
    { unfold selNumBins. cbn [sN sScale]. apply bins_ge. change 1%Q with (inject_Z 1). rewrite <- Zle_Qle. lia. }
    split_and!; try done; [lia|]. right. unfold h in E2. destruct (N.eqb_spec hh 0); [done|done].
Qed.

Lemma growE_first sec stat fuel : forall e s r, growE sec stat fuel e s = Some r -> ~ (stat <= s)%Q ->
  (e < r)%Z /\ (stat <= sec r)%Q /\ forall e', (e < e' < r)%Z -> ~ (stat <= sec e')%Q.
Proof.
  induction fuel as [|f IH]; intros e s r H Hs; cbn [growE] in H; destruct (Qle_bool stat s) eqn:E; [by apply Qle_bool_iff in E|done|by apply Qle_bool_iff in E|].
  destruct (Qlt_le_dec (sec (e + 1)%Z) stat) as [Q|Q].
  - assert (~ (stat <= sec (e + 1)%Z)%Q) as Hn by (intros H'; lra). destruct (IH _ _ _ H Hn) as (H1 & H2 & H3). split; [lia|]. split; [done|].
    intros e' He. destruct (Z.eq_dec e' (e + 1)%Z) as [->|Hne]; [done|]. apply H3. lia.
  - assert (r = e + 1)%Z as ->. { apply Qle_bool_iff in Q. destruct f; cbn [growE] in H; rewrite Q in H; by injection H as <-. }
    split; [lia|]. split; [done|]. intros e' He. lia.
Qed.

Lemma selectParams_secure log2d sec fuel n stat stash hh s :
  (1 <= n)%N -> (1 <= stat)%N -> selectParams log2d sec fuel n stat stash hh = Done (Some s) ->
  (sHashes s = 3%N /\ (240 * sScale s - 256 - log2d n == inject_Z (Z.of_N stat))%Q) \/
  (sHashes s = 2%N /\ exists e, sScale s = inject_Z e /\ (1 < e)%Z /\ (inject_Z (Z.of_N stat) <= sec n stash e)%Q /\
     forall e', (1 < e' < e)%Z -> ~ (inject_Z (Z.of_N stat) <= sec n stash e')%Q).
Proof.
  intros Hn Hstat. unfold selectParams. set (h := if hh =? 0 then 3 else hh). destruct ((stash =? 0)%N && (h =? 3)%N) eqn:E.
  - intros [= <-]. left. cbn [sHashes sScale]. split; [done|]. field.
  - destruct (N.eqb_spec h 2) as [E2|]; [|done]. destruct (growE _ _ _ _ _) as [e|] eqn:Eg; [|done]. intros [= <-]. right. cbn [sHashes sScale]. split; [done|].
    exists e. split; [done|]. apply (growE_first _ _ _ _ _ _ Eg). intros H. change 0%Q with (inject_Z 0) in H. rewrite <- Zle_Qle in H. lia.
Qed.
