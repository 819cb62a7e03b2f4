(** Fields with 2^(2^k) elements, for the examples: each is a quadratic extension of the one before, by a root of X^2 + X + c. *)
From Verif Require Import Base PolyTree_Model PolyTree_Spec PolyNtl_Model PolyNtl_Spec.
From Coq Require Import Field.

(** [(a, b)] stands for [a + b t] with [t^2 = t + c]. *)
Definition quad (K : fops) (c : fT K) : fops :=
  mkFops (fT K * fT K) (f0 K, f0 K) (f1 K, f0 K) (fun x y => (fadd K x.1 y.1, fadd K x.2 y.2))
    (fun x y => (fadd K (fmul K x.1 y.1) (fmul K (fmul K x.2 y.2) c), fadd K (fadd K (fmul K x.1 y.2) (fmul K x.2 y.1)) (fmul K x.2 y.2)))
    (fun x y => (fsub K x.1 y.1, fsub K x.2 y.2)) (fun x => (fopp K x.1, fopp K x.2))
    (fun x => let n := fsub K (fadd K (fmul K x.1 x.1) (fmul K x.1 x.2)) (fmul K (fmul K x.2 x.2) c) in
              (fmul K (fadd K x.1 x.2) (finv K n), fmul K (fopp K x.2) (finv K n)))
    (fun x y => feqb K x.1 y.1 && feqb K x.2 y.2).
(** The extension is proper. *)
Definition irreducible (K : fops) (c : fT K) : Prop := forall y, fadd K (fmul K y y) y <> c.

Section quad.
Context (K : fops) (c : fT K) (HK : isField K) (Hc : irreducible K c).
Let FT : field_theory (f0 K) (f1 K) (fadd K) (fmul K) (fsub K) (fopp K) (fun a b => fmul K a (finv K b)) (finv K) eq := proj1 HK.
Add Field KF : FT.
Lemma quad_norm a b : (a, b) <> (f0 K, f0 K) -> fsub K (fadd K (fmul K a a) (fmul K a b)) (fmul K (fmul K b b) c) <> f0 K.
Proof using HK Hc FT.
  intros Hab Hn. destruct (feqb K b (f0 K)) eqn:Eb.
  - apply HK in Eb. subst b. assert (fmul K a a = f0 K) as Ha by (rewrite <- Hn; ring).
    destruct (feqb K a (f0 K)) eqn:Ea; [apply HK in Ea; by subst a|]. assert (a <> f0 K) as Hna by (intros E; apply HK in E; congruence).
    apply Hna. transitivity (fmul K (finv K a) (fmul K a a)); [field; done|]. rewrite Ha. ring.
  - assert (b <> f0 K) as Hb by (intros E; apply HK in E; congruence). apply (Hc (fmul K a (finv K b))).
    assert (fmul K (fmul K b b) c = fadd K (fmul K a a) (fmul K a b)) as E. { transitivity (fadd K (fsub K (fmul K (fmul K b b) c) (fadd K (fmul K a a) (fmul K a b))) (fadd K (fmul K a a) (fmul K a b))); [ring|].
      transitivity (fadd K (fopp K (fsub K (fadd K (fmul K a a) (fmul K a b)) (fmul K (fmul K b b) c))) (fadd K (fmul K a a) (fmul K a b))); [ring|]. rewrite Hn. ring. }
    transitivity (fmul K (fmul K (finv K b) (finv K b)) (fmul K (fmul K b b) c)); [rewrite E|]; field; done.
Qed.
Lemma quad_field : isField (quad K c).
Proof using HK Hc FT.
  split.
  - constructor; [constructor| | |]; cbn [quad f0 f1 fadd fmul fsub fopp finv fT]; repeat intros [? ?] || intros; cbn [fst snd]; try (f_equal; ring).
    + intros E. injection E as E. by destruct (F_1_neq_0 FT).
    + pose proof (quad_norm _ _ H) as Hn. f_equal; field; done.
  - intros [a b] [a' b']. cbn [quad feqb fst snd]. rewrite andb_true_iff. rewrite !(proj2 HK). split; [intros [-> ->]; done|intros E; injection E as -> ->; done].
Qed.
Lemma quad_irreducible : fadd K (f1 K) (f1 K) = f0 K -> irreducible (quad K c) (f0 K, c).
Proof using HK Hc FT.
  intros H2 [a b] E. cbn [quad fadd fmul fst snd] in E. injection E as _ E. apply (Hc b). rewrite <- E.
  transitivity (fadd K (fadd K (fmul K b b) b) (fmul K (fadd K (f1 K) (f1 K)) (fmul K a b))); [rewrite H2; ring|ring].
Qed.
End quad.

(** A field with its [c] and its numbering by [twBits] bits. *)
Record tower := mkTower { twK : fops; twC : fT twK; twRep : fT twK -> N; twOf : N -> fT twK; twBits : N }.
Definition twNext (t : tower) : tower :=
  mkTower (quad (twK t) (twC t)) (f0 (twK t), twC t) (fun x => twRep t x.1 + 2 ^ twBits t * twRep t x.2)
    (fun n => (twOf t (n mod 2 ^ twBits t), twOf t (n / 2 ^ twBits t))) (2 * twBits t).
Definition bit2 : fops := mkFops bool false true xorb andb xorb id id eqb.
Fixpoint twAt (k : nat) : tower := match k with O => mkTower bit2 true (fun b => if b then 1 else 0) (fun n => N.odd n) 1 | S k' => twNext (twAt k') end.

Definition towerOk (t : tower) : Prop :=
  isField (twK t) /\ irreducible (twK t) (twC t) /\ fadd (twK t) (f1 (twK t)) (f1 (twK t)) = f0 (twK t) /\
  (forall a, twRep t a < 2 ^ twBits t) /\ (forall a, twOf t (twRep t a) = a) /\ (forall n, n < 2 ^ twBits t -> twRep t (twOf t n) = n).
Lemma tower_ok k : towerOk (twAt k) /\ twBits (twAt k) = 2 ^ N.of_nat k.
Proof.
  induction k as [|k [(HK & Hc & H2 & Hb & Hof & Hrep) IHb]].
  - split; [|done]. split; [|split; [|split; [done|split; [|split]]]]; cbn [twAt twK twC twRep twOf twBits bit2].
    + split; [|intros [] []; cbn; split; congruence]. constructor; [constructor| | |]; cbn; intros; repeat match goal with b : bool |- _ => destruct b end; done.
    + intros []; done.
    + intros []; lia.
    + intros []; done.
    + intros n Hn. assert (n = 0 \/ n = 1) as [-> | ->] by lia; done.
  - set (t := twAt k) in *. change (twAt (S k)) with (twNext t). split; [|cbn [twNext twBits]; rewrite IHb, Nat2N.inj_succ, N.pow_succ_r'; done].
    assert (0 < 2 ^ twBits t) as Hpos by (apply N.neq_0_lt_0, N.pow_nonzero; lia).
    assert (2 ^ (2 * twBits t) = 2 ^ twBits t * 2 ^ twBits t) as Esq by (rewrite <- N.pow_add_r; f_equal; lia).
    split; [|split; [|split; [|split; [|split]]]]; cbn [twNext twK twC twRep twOf twBits].
    + by apply quad_field.
    + by apply quad_irreducible.
    + cbn [quad fadd f1 f0 fst snd]. rewrite H2. f_equal. exact (Radd_0_l (F_R (proj1 HK)) _).
    + intros [a b]. cbn [fst snd]. rewrite Esq. pose proof (Hb a). pose proof (Hb b). set (q := 2 ^ twBits t) in *. nia.
    + intros [a b]. cbn [fst snd]. pose proof (Hb a) as Ha. rewrite N.mul_comm. rewrite N.mod_add, N.div_add by lia. rewrite N.mod_small, N.div_small by done. cbn. by rewrite N.add_0_l, !Hof.
    + intros n Hn. cbn [fst snd]. rewrite !Hrep; [rewrite N.add_comm; symmetry; apply N.div_mod; lia| |].
      * rewrite Esq in Hn. apply N.div_lt_upper_bound; [lia|done].
      * apply N.mod_lt. lia.
Qed.
(** The field of [2^j] bytes. *)
Lemma tower_bytes j : byteField (twK (twAt (3 + j))) (twRep (twAt (3 + j))) (twOf (twAt (3 + j))) (2 ^ j).
Proof.
  destruct (tower_ok (3 + j)) as [(HK & _ & _ & Hb & Hof & Hrep) IHb].
  assert (twBits (twAt (3 + j)) = 8 * N.of_nat (2 ^ j)) as E.
  { rewrite IHb. rewrite Nat2N.inj_add, N.pow_add_r. f_equal. rewrite Nat2N.inj_pow. done. }
  rewrite E in Hb, Hrep. done.
Qed.
(** A polynomial with at most one coefficient is constant. *)
Section short.
Context (K : fops) (HK : isField K).
Let FT2 : field_theory (f0 K) (f1 K) (fadd K) (fmul K) (fsub K) (fopp K) (fun a b => fmul K a (finv K b)) (finv K) eq := proj1 HK.
Add Field KF2 : FT2.
Lemma field_short q : (length q < 2)%nat -> forall x, evalAt K q x = match q with [] => f0 K | a :: _ => a end.
Proof using HK FT2. intros Hq x. destruct q as [|a [|b q]]; [done| |cbn in Hq; lia]. cbn [evalAt]. ring. Qed.
End short.
