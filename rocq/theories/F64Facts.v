(** Facts about the [f64] operations: order, exactness on a grid, symmetry,
    monotonicity.  Proof support only; nothing here models code. *)
From Coq Require Import ZArith Bool Reals Lia Lra Psatz.
From Coq Require Import ZifyBool.
From Flocq Require Import Core IEEE754.BinarySingleNaN.
From Verif Require Import F64.
Open Scope Z_scope.

Notation fexp64 := (SpecFloat.fexp 53 1024).
Notation bp := (bpow radix2).
Notation RN := (round radix2 fexp64 (round_mode mode_NE)).
#[global] Instance fexp64_valid : Valid_exp fexp64 := fexp_correct 53 1024 _.
#[global] Instance fexp64_mono : Monotone_exp fexp64 := fexp_monotone 53 1024.

Lemma nn_finite x : fis_finite x = true -> nn x.
Proof. destruct x; easy. Qed.

(** ** Rank *)

Lemma bounded_emin m e : SpecFloat.bounded 53 1024 m e = true -> -1074 <= e.
Proof.
  intros H. unfold SpecFloat.bounded in H.
  apply andb_prop in H. destruct H as [H _].
  unfold SpecFloat.canonical_mantissa in H.
  apply Zeq_bool_eq in H. unfold SpecFloat.fexp, SpecFloat.emin in H. lia.
Qed.

Lemma rank_R x : fis_finite x = true -> R_of x = (IZR (rank x) * bp (-1074))%R.
Proof.
  destruct x as [s|s| |s m e H]; try easy; intros _; unfold R_of, rank; cbn [B2R].
  - now rewrite Rmult_0_l.
  - unfold F2R; cbn [Fnum Fexp]. rewrite mult_IZR.
    pose proof (bounded_emin _ _ H).
    rewrite (IZR_Zpower radix2) by lia.
    rewrite Rmult_assoc, <- bpow_plus. f_equal. f_equal. lia.
Qed.

Lemma rank_bound x : fis_finite x = true -> Z.abs (rank x) < 2 ^ 2098.
Proof.
  intros F. pose proof (abs_B2R_lt_emax 53 1024 x) as H.
  fold (R_of x) in H. rewrite (rank_R _ F) in H.
  rewrite Rabs_mult, (Rabs_pos_eq (bp (-1074))) in H by apply bpow_ge_0.
  apply lt_IZR. rewrite abs_IZR. rewrite (IZR_Zpower radix2) by lia.
  apply Rmult_lt_reg_r with (bp (-1074)). apply bpow_gt_0.
  rewrite <- bpow_plus. exact H.
Qed.

Lemma rank_inf s : rank (B754_infinity s) = if s then - 2 ^ 2098 else 2 ^ 2098.
Proof. reflexivity. Qed.

Lemma Bcompare_rank x y : nn x -> nn y -> Bcompare x y = Some (rank x ?= rank y).
Proof.
  intros Nx Ny.
  destruct (fis_finite x) eqn:Fx; [destruct (fis_finite y) eqn:Fy|].
  - rewrite Bcompare_correct by assumption. f_equal.
    fold (R_of x) (R_of y). rewrite (rank_R _ Fx), (rank_R _ Fy).
    rewrite Rcompare_mult_r by apply bpow_gt_0. apply Rcompare_IZR.
  - pose proof (rank_bound _ Fx).
    destruct y as [s|s| |s m e H']; try easy.
    rewrite rank_inf.
    assert (Bcompare x (B754_infinity s) = Some (if s then Gt else Lt)) as ->.
    { destruct x as [?|?| |[|] ? ? ?], s; easy. }
    f_equal. destruct s; symmetry; [rewrite Z.compare_gt_iff | rewrite Z.compare_lt_iff]; lia.
  - destruct x as [s|s| |s m e H']; try easy. clear Nx Fx.
    destruct (fis_finite y) eqn:Fy.
    + pose proof (rank_bound _ Fy). rewrite rank_inf.
      assert (Bcompare (B754_infinity s) y = Some (if s then Lt else Gt)) as ->.
      { destruct y as [?|?| |[|] ? ? ?], s; easy. }
      f_equal. destruct s; symmetry; [rewrite Z.compare_lt_iff | rewrite Z.compare_gt_iff]; lia.
    + destruct y as [s'|s'| |s' m e H']; try easy.
      destruct s, s'; reflexivity.
Qed.

Lemma fltb_rank x y : nn x -> nn y -> fltb x y = (rank x <? rank y).
Proof.
  intros Nx Ny. pose proof (Bcompare_rank x y Nx Ny) as H.
  unfold fltb, Bltb, SpecFloat.SFltb. unfold Bcompare in H. rewrite H.
  unfold Z.ltb. reflexivity.
Qed.
Lemma fleb_rank x y : nn x -> nn y -> fleb x y = (rank x <=? rank y).
Proof.
  intros Nx Ny. pose proof (Bcompare_rank x y Nx Ny) as H.
  unfold fleb, Bleb, SpecFloat.SFleb. unfold Bcompare in H. rewrite H.
  unfold Z.leb. destruct (rank x ?= rank y); reflexivity.
Qed.
Lemma feqb_rank x y : nn x -> nn y -> feqb x y = (rank x =? rank y).
Proof.
  intros Nx Ny. pose proof (Bcompare_rank x y Nx Ny) as H.
  unfold feqb, Beqb, SpecFloat.SFeqb. unfold Bcompare in H. rewrite H.
  rewrite Z.eqb_compare. destruct (rank x ?= rank y); reflexivity.
Qed.
Lemma fgtb_rank x y : nn x -> nn y -> fgtb x y = (rank y <? rank x).
Proof. intros; now apply fltb_rank. Qed.
Lemma fgeb_rank x y : nn x -> nn y -> fgeb x y = (rank y <=? rank x).
Proof. intros; now apply fleb_rank. Qed.
Lemma fneb_rank x y : nn x -> nn y -> fneb x y = negb (rank x =? rank y).
Proof. intros. unfold fneb. f_equal. now apply feqb_rank. Qed.

Lemma fltb_nn x y : fltb x y = true -> nn x /\ nn y.
Proof. destruct x, y; easy. Qed.
Lemma fleb_nn x y : fleb x y = true -> nn x /\ nn y.
Proof. destruct x, y; easy. Qed.
Lemma feqb_nn x y : feqb x y = true -> nn x /\ nn y.
Proof. destruct x, y; easy. Qed.
Lemma fltb_nan_l x y : fis_nan x = true -> fltb x y = false.
Proof. destruct x; easy. Qed.
Lemma fltb_nan_r x y : fis_nan y = true -> fltb x y = false.
Proof. destruct x as [|[]| |[]], y; easy. Qed.
Lemma fleb_nan_l x y : fis_nan x = true -> fleb x y = false.
Proof. destruct x; easy. Qed.
Lemma fleb_nan_r x y : fis_nan y = true -> fleb x y = false.
Proof. destruct x as [|[]| |[]], y; easy. Qed.
Lemma feqb_nan_l x y : fis_nan x = true -> feqb x y = false.
Proof. destruct x; easy. Qed.
Lemma feqb_nan_r x y : fis_nan y = true -> feqb x y = false.
Proof. destruct x as [|[]| |[]], y; easy. Qed.

(** Rewrite every comparison into one on ranks, using [nn] hypotheses. *)
Ltac rk :=
  unfold fgtb, fgeb, fneb in *;
  change (@Bltb 53 1024) with fltb in *;
  change (@Bleb 53 1024) with fleb in *;
  change (@Beqb 53 1024) with feqb in *;
  repeat match goal with
  | H : context [fltb ?x ?y] |- _ => rewrite (fltb_rank x y) in H by auto
  | H : context [fleb ?x ?y] |- _ => rewrite (fleb_rank x y) in H by auto
  | H : context [feqb ?x ?y] |- _ => rewrite (feqb_rank x y) in H by auto
  | |- context [fltb ?x ?y] => rewrite (fltb_rank x y) by auto
  | |- context [fleb ?x ?y] => rewrite (fleb_rank x y) by auto
  | |- context [feqb ?x ?y] => rewrite (feqb_rank x y) by auto
  end.
(** Split every [if] in goal and hypotheses. *)
Ltac splitif :=
  repeat match goal with
  | |- context [if ?c then _ else _] => destruct c eqn:?
  | H : context [if ?c then _ else _] |- _ => destruct c eqn:?
  end.
Ltac rklia := rk; lia.
(** Turn boolean comparisons of integers in hypotheses into propositions. *)
Ltac zb := repeat match goal with
  | H : (_ <? _) = true |- _ => apply Z.ltb_lt in H
  | H : (_ <? _) = false |- _ => apply Z.ltb_ge in H
  | H : (_ <=? _) = true |- _ => apply Z.leb_le in H
  | H : (_ <=? _) = false |- _ => apply Z.leb_gt in H
  | H : (_ =? _) = true |- _ => apply Z.eqb_eq in H
  | H : (_ =? _) = false |- _ => apply Z.eqb_neq in H
  | H : negb _ = true |- _ => apply negb_true_iff in H
  | H : negb _ = false |- _ => apply negb_false_iff in H
  end.

(** Lexicographic three-way comparison, one level. *)
Definition lex (a b k : Z) : Z := if a <? b then -1 else if b <? a then 1 else k.
Lemma lex_antisym a b k k' : k' = - k -> lex b a k' = - lex a b k.
Proof. unfold lex. intros ->. destruct (Z.ltb_spec a b), (Z.ltb_spec b a); lia. Qed.
Lemma lex_trans a b c k1 k2 k3 : (k1 <= 0 -> k2 <= 0 -> k3 <= 0) ->
  lex a b k1 <= 0 -> lex b c k2 <= 0 -> lex a c k3 <= 0.
Proof.
  unfold lex. intros H. destruct (Z.ltb_spec a b), (Z.ltb_spec b a), (Z.ltb_spec b c),
   (Z.ltb_spec c b), (Z.ltb_spec a c), (Z.ltb_spec c a); lia.
Qed.
Lemma lex_trans_lt a b c k1 k2 k3 : (k1 < 0 -> k2 < 0 -> k3 < 0) ->
  lex a b k1 < 0 -> lex b c k2 < 0 -> lex a c k3 < 0.
Proof.
  unfold lex. intros H. destruct (Z.ltb_spec a b), (Z.ltb_spec b a), (Z.ltb_spec b c),
   (Z.ltb_spec c b), (Z.ltb_spec a c), (Z.ltb_spec c a); lia.
Qed.
Lemma lex_zero a b k : lex a b k = 0 <-> a = b /\ k = 0.
Proof. unfold lex. destruct (Z.ltb_spec a b), (Z.ltb_spec b a); lia. Qed.
Lemma lex_range a b k : -1 <= k <= 1 -> -1 <= lex a b k <= 1.
Proof. unfold lex. destruct (Z.ltb_spec a b), (Z.ltb_spec b a); lia. Qed.

Lemma rank_finite_nz s m e H : rank (B754_finite s m e H) <> 0.
Proof.
  pose proof (bounded_emin _ _ H).
  assert (0 < 2 ^ (e+1074)) by (apply Z.pow_pos_nonneg; lia).
  unfold rank, cond_Zopp. destruct s; nia.
Qed.

(** Equal ranks of non-NaN: equal data except for the two zeros. *)
Lemma rank_inj x y : nn x -> nn y -> rank x = rank y ->
  x = y \/ (exists s s', x = B754_zero s /\ y = B754_zero s').
Proof.
  intros Nx Ny E.
  destruct (fis_finite x) eqn:Fx; [destruct (fis_finite y) eqn:Fy|].
  - assert (R_of x = R_of y) as ER by (rewrite !rank_R by assumption; now rewrite E).
    destruct x as [s|s| |s m e Hb], y as [s'|s'| |s' m' e' Hb']; try easy.
    + right; eauto.
    + exfalso. symmetry in E. now apply rank_finite_nz in E.
    + exfalso. now apply rank_finite_nz in E.
    + left. apply B2R_inj; easy.
  - pose proof (rank_bound _ Fx). destruct y as [s'|s'| |s' m' e' Hb']; try easy.
    rewrite rank_inf in E. destruct s'; lia.
  - destruct x as [s|s| |s m e Hb]; try easy. rewrite rank_inf in E.
    destruct (fis_finite y) eqn:Fy.
    + pose proof (rank_bound _ Fy). destruct s; lia.
    + destruct y as [s'|s'| |s' m' e' Hb']; try easy. rewrite rank_inf in E.
      left. destruct s, s'; try reflexivity; lia.
Qed.

Lemma rank_ltR x y : fis_finite x = true -> fis_finite y = true ->
  (rank x < rank y <-> (R_of x < R_of y)%R).
Proof.
  intros Fx Fy. rewrite (rank_R _ Fx), (rank_R _ Fy). split; intros H.
  - apply Rmult_lt_compat_r. apply bpow_gt_0. now apply IZR_lt.
  - apply lt_IZR. eapply Rmult_lt_reg_r; [|exact H]. apply bpow_gt_0.
Qed.
Lemma rank_leR x y : fis_finite x = true -> fis_finite y = true ->
  (rank x <= rank y <-> (R_of x <= R_of y)%R).
Proof.
  intros Fx Fy. pose proof (rank_ltR y x Fy Fx). split; intros H1.
  - apply Rnot_lt_le. intros H2. apply H in H2. lia.
  - assert (~ rank y < rank x); [|lia]. intros H2. apply H in H2. lra.
Qed.
Lemma rank_eqR x y : fis_finite x = true -> fis_finite y = true ->
  (rank x = rank y <-> R_of x = R_of y).
Proof.
  intros Fx Fy. pose proof (rank_leR x y Fx Fy). pose proof (rank_leR y x Fy Fx).
  split; intros E.
  - assert (rank x <= rank y) by lia. assert (rank y <= rank x) by lia. apply Rle_antisym; tauto.
  - assert (R_of x <= R_of y)%R by lra. assert (R_of y <= R_of x)%R by lra. apply Z.le_antisymm; tauto.
Qed.
Lemma fltb_R x y : fis_finite x = true -> fis_finite y = true ->
  fltb x y = Rlt_bool (R_of x) (R_of y).
Proof. intros. now apply Bltb_correct. Qed.
Lemma fleb_R x y : fis_finite x = true -> fis_finite y = true ->
  fleb x y = Rle_bool (R_of x) (R_of y).
Proof. intros. now apply Bleb_correct. Qed.
Lemma feqb_R x y : fis_finite x = true -> fis_finite y = true ->
  feqb x y = Req_bool (R_of x) (R_of y).
Proof. intros. now apply Beqb_correct. Qed.

(** ** Correct rounding of the operations in terms of reals *)

Lemma fadd_R x y : fis_finite x = true -> fis_finite y = true ->
  (Rabs (RN (R_of x + R_of y)) < bp 1024)%R ->
  fis_finite (fadd x y) = true /\ R_of (fadd x y) = RN (R_of x + R_of y).
Proof.
  intros Fx Fy H. pose proof (Bplus_correct 53 1024 _ _ mode_NE x y Fx Fy) as C.
  unfold R_of in *. rewrite Rlt_bool_true in C by exact H. tauto.
Qed.
Lemma fsub_R x y : fis_finite x = true -> fis_finite y = true ->
  (Rabs (RN (R_of x - R_of y)) < bp 1024)%R ->
  fis_finite (fsub x y) = true /\ R_of (fsub x y) = RN (R_of x - R_of y).
Proof.
  intros Fx Fy H. pose proof (Bminus_correct 53 1024 _ _ mode_NE x y Fx Fy) as C.
  unfold R_of in *. rewrite Rlt_bool_true in C by exact H. tauto.
Qed.
Lemma fmul_R x y : fis_finite x = true -> fis_finite y = true ->
  (Rabs (RN (R_of x * R_of y)) < bp 1024)%R ->
  fis_finite (fmul x y) = true /\ R_of (fmul x y) = RN (R_of x * R_of y).
Proof.
  intros Fx Fy H. pose proof (Bmult_correct 53 1024 _ _ mode_NE x y) as C.
  unfold R_of, fis_finite, fmul in *. rewrite Rlt_bool_true in C by exact H.
  destruct C as (C1 & C2 & _). split; [|exact C1]. now rewrite C2, Fx, Fy.
Qed.
Lemma fdiv_R x y : fis_finite x = true -> R_of y <> 0%R ->
  (Rabs (RN (R_of x / R_of y)) < bp 1024)%R ->
  fis_finite (fdiv x y) = true /\ R_of (fdiv x y) = RN (R_of x / R_of y).
Proof.
  intros Fx Fy H. pose proof (Bdiv_correct 53 1024 _ _ mode_NE x y Fy) as C.
  unfold R_of, fis_finite, fdiv in *. rewrite Rlt_bool_true in C by exact H.
  destruct C as (C1 & C2 & _). split; [|exact C1]. now rewrite C2, Fx.
Qed.
Lemma fneg_R x : R_of (fneg x) = (- R_of x)%R.
Proof. apply B2R_Bopp. Qed.
Lemma fneg_fin x : fis_finite (fneg x) = fis_finite x.
Proof. apply is_finite_Bopp. Qed.
Lemma fabs_R x : R_of (fabs x) = Rabs (R_of x).
Proof. apply B2R_Babs. Qed.
Lemma fabs_fin x : fis_finite (fabs x) = fis_finite x.
Proof. apply is_finite_Babs. Qed.
Lemma nn_fneg x : nn x -> nn (fneg x).
Proof. unfold nn, fneg, fis_nan. now rewrite is_nan_Bopp. Qed.
Lemma nn_fabs x : nn x -> nn (fabs x).
Proof. unfold nn, fabs, fis_nan. now rewrite is_nan_Babs. Qed.
Lemma rank_fneg x : rank (fneg x) = - rank x.
Proof. destruct x as [s|[]| |[] m e H]; try reflexivity; unfold rank, fneg, Bopp, cond_Zopp, negb; lia. Qed.
Lemma rank_fabs x : rank (fabs x) = Z.abs (rank x).
Proof.
  destruct x as [s|[]| |s m e H]; try reflexivity.
  pose proof (bounded_emin _ _ H).
  assert (0 < 2 ^ (e+1074)) by (apply Z.pow_pos_nonneg; lia).
  destruct s; unfold rank, fabs, Babs, cond_Zopp; lia.
Qed.

Lemma format_R x : generic_format radix2 fexp64 (R_of x).
Proof. apply generic_format_B2R. Qed.
Lemma RN_format r : generic_format radix2 fexp64 (RN r).
Proof. apply generic_format_round; auto with typeclass_instances. Qed.
Lemma RN_id r : generic_format radix2 fexp64 r -> RN r = r.
Proof. intros. apply round_generic; auto with typeclass_instances. Qed.
Lemma RN_le a b : (a <= b)%R -> (RN a <= RN b)%R.
Proof. intros. apply round_le; auto with typeclass_instances. Qed.
Lemma RN_0 : RN 0 = 0%R.
Proof. apply round_0; auto with typeclass_instances. Qed.
Lemma RN_opp r : RN (- r) = (- RN r)%R.
Proof. apply round_NE_opp. Qed.

(** ** Grid exactness *)

(** [grid e x n]: [x] is the finite double [n * 2^e]. *)
Definition grid (e : Z) (x : f64) (n : Z) : Prop :=
  fis_finite x = true /\ R_of x = (IZR n * bp e)%R.

Lemma format_grid e n : -1074 <= e -> Z.abs n <= 2 ^ 53 ->
  generic_format radix2 fexp64 (IZR n * bp e).
Proof.
  intros He Hn.
  destruct (Z.eq_dec (Z.abs n) (2^53)) as [E|NE].
  - assert (exists s : bool, n = cond_Zopp s (2^53)) as [s ->].
    { exists (n <? 0). destruct (Z.ltb_spec n 0); simpl cond_Zopp; lia. }
    assert (IZR (cond_Zopp s (2^53)) * bp e = cond_Ropp s (bp (53 + e)))%R as ->.
    { rewrite bpow_plus. replace (bp 53) with (IZR (2^53)) by (rewrite (IZR_Zpower radix2) by lia; reflexivity).
      unfold cond_Zopp, cond_Ropp; destruct s; [rewrite opp_IZR|]; ring. }
    destruct s; [apply generic_format_opp|]; cbv beta iota delta [cond_Ropp];
    apply generic_format_bpow; unfold SpecFloat.fexp, SpecFloat.emin; lia.
  - apply generic_format_FLT.
    exists (Float radix2 n e); [reflexivity| |]; simpl; [|exact He].
    change (Z.pow_pos 2 53) with (2^53). lia.
Qed.

Lemma grid_small e n : e <= 970 -> Z.abs n <= 2 ^ 53 -> (Rabs (IZR n * bp e) < bp 1024)%R.
Proof.
  intros He Hn. rewrite Rabs_mult, <- abs_IZR, (Rabs_pos_eq (bp e)) by apply bpow_ge_0.
  apply Rle_lt_trans with (bp 53 * bp e)%R.
  - apply Rmult_le_compat_r. apply bpow_ge_0.
    replace (bp 53) with (IZR (2^53)) by (rewrite (IZR_Zpower radix2) by lia; reflexivity).
    now apply IZR_le.
  - rewrite <- bpow_plus. apply bpow_lt. lia.
Qed.

Lemma grid_RN e n : -1074 <= e -> Z.abs n <= 2 ^ 53 -> RN (IZR n * bp e) = (IZR n * bp e)%R.
Proof. intros. apply RN_id. now apply format_grid. Qed.

Lemma grid_add e x y n m : -1074 <= e <= 970 -> Z.abs (n + m) <= 2 ^ 53 ->
  grid e x n -> grid e y m -> grid e (fadd x y) (n + m).
Proof.
  intros He Hn [Fx Rx] [Fy Ry].
  assert (R_of x + R_of y = IZR (n + m) * bp e)%R as E by (rewrite Rx, Ry, plus_IZR; ring).
  destruct (fadd_R x y Fx Fy) as [F R].
  - rewrite E, grid_RN by lia. apply grid_small; lia.
  - split; [exact F|]. rewrite R, E. apply grid_RN; lia.
Qed.
Lemma grid_sub e x y n m : -1074 <= e <= 970 -> Z.abs (n - m) <= 2 ^ 53 ->
  grid e x n -> grid e y m -> grid e (fsub x y) (n - m).
Proof.
  intros He Hn [Fx Rx] [Fy Ry].
  assert (R_of x - R_of y = IZR (n - m) * bp e)%R as E by (rewrite Rx, Ry, minus_IZR; ring).
  destruct (fsub_R x y Fx Fy) as [F R].
  - rewrite E, grid_RN by lia. apply grid_small; lia.
  - split; [exact F|]. rewrite R, E. apply grid_RN; lia.
Qed.
Lemma grid_mul e1 e2 x y n m : -1074 <= e1 + e2 <= 970 -> Z.abs (n * m) <= 2 ^ 53 ->
  grid e1 x n -> grid e2 y m -> grid (e1 + e2) (fmul x y) (n * m).
Proof.
  intros He Hn [Fx Rx] [Fy Ry].
  assert (R_of x * R_of y = IZR (n * m) * bp (e1 + e2))%R as E by (rewrite Rx, Ry, mult_IZR, bpow_plus; ring).
  destruct (fmul_R x y Fx Fy) as [F R].
  - rewrite E, grid_RN by lia. apply grid_small; lia.
  - split; [exact F|]. rewrite R, E. apply grid_RN; lia.
Qed.
(** Division by a power of two. *)
Lemma grid_div2 e x y n k : -1074 <= e - k <= 970 -> Z.abs n <= 2 ^ 53 ->
  grid e x n -> R_of y = bp k -> grid (e - k) (fdiv x y) n.
Proof.
  intros He Hn [Fx Rx] Ry.
  assert (R_of x / R_of y = IZR n * bp (e - k))%R as E.
  { rewrite Rx, Ry. unfold Z.sub. rewrite bpow_plus, bpow_opp. unfold Rdiv. ring. }
  destruct (fdiv_R x y Fx) as [F R].
  - rewrite Ry. apply Rgt_not_eq, bpow_gt_0.
  - rewrite E, grid_RN by lia. apply grid_small; lia.
  - split; [exact F|]. rewrite R, E. apply grid_RN; lia.
Qed.
Lemma grid_neg e x n : grid e x n -> grid e (fneg x) (- n).
Proof. intros [F R]. split. now rewrite fneg_fin. rewrite fneg_R, R, opp_IZR. ring. Qed.
Lemma grid_abs e x n : grid e x n -> grid e (fabs x) (Z.abs n).
Proof.
  intros [F R]. split. now rewrite fabs_fin. rewrite fabs_R, R, Rabs_mult, abs_IZR.
  now rewrite (Rabs_pos_eq (bp e)) by apply bpow_ge_0.
Qed.
Lemma grid_nn e x n : grid e x n -> nn x.
Proof. intros [F _]. now apply nn_finite. Qed.
Lemma grid_shift e e' x n : e' <= e -> grid e x n -> grid e' x (n * 2 ^ (e - e')).
Proof.
  intros H [F R]. split; [exact F|]. rewrite R, mult_IZR, (IZR_Zpower radix2) by lia.
  rewrite Rmult_assoc, <- bpow_plus. do 2 f_equal. lia.
Qed.
Lemma grid_inj e x n m : grid e x n -> grid e x m -> n = m.
Proof.
  intros [_ R1] [_ R2]. apply eq_IZR. apply Rmult_eq_reg_r with (bp e).
  congruence. apply Rgt_not_eq, bpow_gt_0.
Qed.

Lemma grid_ltb e x y n m : grid e x n -> grid e y m -> fltb x y = (n <? m).
Proof.
  intros [Fx Rx] [Fy Ry]. rewrite fltb_R by assumption. rewrite Rx, Ry.
  pose proof (bpow_gt_0 radix2 e).
  destruct (Z.ltb_spec n m).
  - apply Rlt_bool_true. apply Rmult_lt_compat_r. assumption. now apply IZR_lt.
  - apply Rlt_bool_false. apply Rmult_le_compat_r. lra. now apply IZR_le.
Qed.
Lemma grid_leb e x y n m : grid e x n -> grid e y m -> fleb x y = (n <=? m).
Proof.
  intros [Fx Rx] [Fy Ry]. rewrite fleb_R by assumption. rewrite Rx, Ry.
  pose proof (bpow_gt_0 radix2 e).
  destruct (Z.leb_spec n m).
  - apply Rle_bool_true. apply Rmult_le_compat_r. lra. now apply IZR_le.
  - apply Rle_bool_false. apply Rmult_lt_compat_r. assumption. now apply IZR_lt.
Qed.
Lemma grid_eqb e x y n m : grid e x n -> grid e y m -> feqb x y = (n =? m).
Proof.
  intros [Fx Rx] [Fy Ry]. rewrite feqb_R by assumption. rewrite Rx, Ry.
  pose proof (bpow_gt_0 radix2 e).
  destruct (Z.eqb_spec n m).
  - apply Req_bool_true. now subst.
  - apply Req_bool_false. intros E. apply Rmult_eq_reg_r in E; [|lra]. now apply eq_IZR in E.
Qed.

Lemma grid_mkf n e : -1074 <= e <= 970 -> Z.abs n <= 2 ^ 53 -> grid e (mkf n e) n.
Proof.
  intros He Hn. pose proof (binary_normalize_correct 53 1024 _ _ mode_NE n e false) as C.
  cbv zeta in C. unfold F2R in C; cbn [Fnum Fexp] in C.
  rewrite grid_RN in C by lia.
  rewrite Rlt_bool_true in C by (apply grid_small; lia).
  destruct C as (C1 & C2 & _). split; assumption.
Qed.
Lemma grid_fofZ n : Z.abs n <= 2 ^ 53 -> grid 0 (fofZ n) n.
Proof. intros. apply grid_mkf; lia. Qed.
Lemma grid_f0 e : grid e f0 0.
Proof. split; [reflexivity|]. unfold R_of, f0; cbn [B2R]. now rewrite Rmult_0_l. Qed.
Lemma grid_zero e s : grid e (B754_zero s) 0.
Proof. split; [reflexivity|]. unfold R_of; cbn [B2R]. now rewrite Rmult_0_l. Qed.
(** Every finite double is on the finest grid. *)
Lemma grid_rank x : fis_finite x = true -> grid (-1074) x (rank x).
Proof. intros F. split. exact F. now apply rank_R. Qed.

(** ** Overflow and monotonicity *)

Lemma fsub_fadd x y : fsub x y = fadd x (fneg y).
Proof. now destruct x as [[]|[]| |[]], y as [[]|[]| |[]]. Qed.

Lemma Bsign_R_le x : fis_finite x = true -> Bsign x = true -> (R_of x <= 0)%R.
Proof.
  destruct x as [s|s| |s m e H]; try easy; intros _ E; unfold R_of; simpl in *; subst.
  - lra.
  - apply F2R_le_0. simpl. lia.
Qed.
Lemma Bsign_R_ge x : fis_finite x = true -> Bsign x = false -> (0 <= R_of x)%R.
Proof.
  destruct x as [s|s| |s m e H]; try easy; intros _ E; unfold R_of; simpl in *; subst.
  - lra.
  - apply F2R_ge_0. simpl. lia.
Qed.

Lemma B2SF_inf (x : f64) s : B2SF x = SpecFloat.S754_infinity s -> x = B754_infinity s.
Proof. destruct x; simpl; intros H; inversion H; reflexivity. Qed.

Lemma fadd_cases x y : fis_finite x = true -> fis_finite y = true ->
  (fis_finite (fadd x y) = true /\ R_of (fadd x y) = RN (R_of x + R_of y) /\
     (Rabs (RN (R_of x + R_of y)) < bp 1024)%R)
  \/ ((bp 1024 <= RN (R_of x + R_of y))%R /\ fadd x y = B754_infinity false)
  \/ ((RN (R_of x + R_of y) <= - bp 1024)%R /\ fadd x y = B754_infinity true).
Proof.
  intros Fx Fy. pose proof (Bplus_correct 53 1024 _ _ mode_NE x y Fx Fy) as C.
  destruct (Rlt_or_le (Rabs (RN (R_of x + R_of y))) (bp 1024)) as [H|H].
  - left. rewrite Rlt_bool_true in C by exact H. unfold R_of, fis_finite, fadd in *. tauto.
  - right. rewrite Rlt_bool_false in C by exact H. destruct C as [C1 C2].
    apply B2SF_inf in C1.
    destruct (Bsign x) eqn:Sx.
    + right. symmetry in C2. split; [|exact C1].
      pose proof (Bsign_R_le _ Fx Sx). pose proof (Bsign_R_le _ Fy C2).
      assert (RN (R_of x + R_of y) <= 0)%R by (rewrite <- RN_0; apply RN_le; lra).
      rewrite Rabs_left1 in H by assumption. lra.
    + left. symmetry in C2. split; [|exact C1].
      pose proof (Bsign_R_ge _ Fx Sx). pose proof (Bsign_R_ge _ Fy C2).
      assert (0 <= RN (R_of x + R_of y))%R by (rewrite <- RN_0; apply RN_le; lra).
      rewrite Rabs_pos_eq in H by assumption. lra.
Qed.

Lemma rank_le_inf x : nn x -> rank x <= 2 ^ 2098.
Proof.
  intros N. destruct (fis_finite x) eqn:F.
  - pose proof (rank_bound _ F). lia.
  - destruct x as [s|[]| |s m e H]; try easy; rewrite rank_inf; lia.
Qed.
Lemma rank_ge_inf x : nn x -> - 2 ^ 2098 <= rank x.
Proof.
  intros N. destruct (fis_finite x) eqn:F.
  - pose proof (rank_bound _ F). lia.
  - destruct x as [s|[]| |s m e H]; try easy; rewrite rank_inf; lia.
Qed.

Lemma nn_fadd_fin x t : nn x -> fis_finite t = true -> nn (fadd x t).
Proof.
  intros N F. destruct (fis_finite x) eqn:Fx.
  - destruct (fadd_cases x t Fx F) as [(H&_)|[(_&E)|(_&E)]].
    now apply nn_finite. now rewrite E. now rewrite E.
  - destruct x as [s|[]| |s m e H]; try easy; destruct t as [s'|[]| |s' m' e' H']; easy.
Qed.
Lemma nn_fsub_fin x t : nn x -> fis_finite t = true -> nn (fsub x t).
Proof. intros. rewrite fsub_fadd. apply nn_fadd_fin; [assumption|]. now rewrite fneg_fin. Qed.

Lemma fadd_le x y t : nn x -> nn y -> fis_finite t = true ->
  rank x <= rank y -> rank (fadd x t) <= rank (fadd y t).
Proof.
  intros Nx Ny Ft L.
  pose proof (nn_fadd_fin _ _ Nx Ft). pose proof (nn_fadd_fin _ _ Ny Ft).
  destruct (fis_finite x) eqn:Fx.
  2:{ destruct x as [s|[]| |s m e Hb]; try easy.
      - replace (fadd (B754_infinity true) t) with (B754_infinity true : f64)
          by (destruct t as [s'|[]| |s' m' e' H']; easy).
        rewrite rank_inf. now apply rank_ge_inf.
      - rewrite rank_inf in L. destruct (fis_finite y) eqn:Fy.
        + pose proof (rank_bound _ Fy). lia.
        + destruct y as [s|[]| |s m e Hb]; try easy; rewrite ?rank_inf in L; lia. }
  destruct (fis_finite y) eqn:Fy.
  2:{ destruct y as [s|[]| |s m e Hb]; try easy.
      - rewrite rank_inf in L. pose proof (rank_bound _ Fx). lia.
      - replace (fadd (B754_infinity false) t) with (B754_infinity false : f64)
          by (destruct t as [s'|[]| |s' m' e' H']; easy).
        rewrite rank_inf. now apply rank_le_inf. }
  apply rank_leR in L; try assumption.
  assert (RN (R_of x + R_of t) <= RN (R_of y + R_of t))%R as M by (apply RN_le; lra).
  pose proof (bpow_gt_0 radix2 1024) as P.
  destruct (fadd_cases x t Fx Ft) as [(F1&E1&B1)|[(B1&E1)|(B1&E1)]];
  destruct (fadd_cases y t Fy Ft) as [(F2&E2&B2)|[(B2&E2)|(B2&E2)]];
  try (apply rank_leR; [assumption..|]; rewrite E1, E2; exact M);
  try (rewrite E2, rank_inf; now apply rank_le_inf);
  try (rewrite E1, rank_inf; now apply rank_ge_inf);
  try (apply Rabs_def2 in B1); try (apply Rabs_def2 in B2); lra.
Qed.

Lemma fadd_comm x y : fadd x y = fadd y x.
Proof.
  destruct (fis_finite x) eqn:Fx; [destruct (fis_finite y) eqn:Fy|].
  - destruct x as [sx|sx| |sx mx ex Hx], y as [sy|sy| |sy my ey Hy]; try easy.
    + destruct sx, sy; reflexivity.
    + unfold fadd, Bplus. rewrite (Z.min_comm ey ex). f_equal.
      unfold Fplus_naive. apply Zplus_comm.
  - destruct x as [[]|[]| |[] mx ex Hx], y as [[]|[]| |[] my ey Hy]; easy.
  - destruct x as [[]|[]| |[] mx ex Hx], y as [[]|[]| |[] my ey Hy]; easy.
Qed.

Lemma fadd_0_rank x s : nn x -> rank (fadd x (B754_zero s)) = rank x.
Proof. destruct x as [[]|[]| |[] m e H], s; easy. Qed.

Lemma fadd_nonneg_ge x t : nn x -> fis_finite t = true -> 0 <= rank t -> rank x <= rank (fadd x t).
Proof.
  intros Nx Ft H.
  destruct (fis_finite x) eqn:Fx.
  - rewrite (fadd_comm x t). rewrite <- (fadd_0_rank x false) by assumption.
    rewrite (fadd_comm x). apply fadd_le; try assumption; try easy. now apply nn_finite.
  - destruct x as [s|[]| |s m e Hb]; try easy; destruct t as [s'|[]| |s' m' e' H']; easy.
Qed.
Lemma fadd_nonpos_le x t : nn x -> fis_finite t = true -> rank t <= 0 -> rank (fadd x t) <= rank x.
Proof.
  intros Nx Ft H.
  destruct (fis_finite x) eqn:Fx.
  - rewrite (fadd_comm x t). rewrite <- (fadd_0_rank x false) by assumption.
    rewrite (fadd_comm x (B754_zero _)). apply fadd_le; try assumption; try easy. now apply nn_finite.
  - destruct x as [s|[]| |s m e Hb]; try easy; destruct t as [s'|[]| |s' m' e' H']; easy.
Qed.

(** Subtraction of distinct doubles never rounds to zero. *)
Lemma fsub_pos x y : fis_finite x = true -> fis_finite y = true -> rank y < rank x ->
  nn (fsub x y) /\ 0 < rank (fsub x y).
Proof.
  intros Fx Fy L. split. apply nn_fsub_fin; [now apply nn_finite|assumption].
  rewrite fsub_fadd. assert (fis_finite (fneg y) = true) as Fy' by now rewrite fneg_fin.
  pose proof (bpow_gt_0 radix2 1024) as P.
  apply rank_ltR in L; try assumption.
  assert (bp (-1074) <= R_of x + R_of (fneg y))%R as B.
  { rewrite fneg_R. rewrite (rank_R _ Fx), (rank_R _ Fy) in *.
    apply Rmult_lt_reg_r in L; [|apply bpow_gt_0]. apply lt_IZR in L.
    assert (1 <= IZR (rank x) - IZR (rank y))%R.
    { rewrite <- minus_IZR. apply IZR_le. lia. }
    pose proof (bpow_gt_0 radix2 (-1074)). nra. }
  assert (bp (-1074) <= RN (R_of x + R_of (fneg y)))%R as B'.
  { apply round_ge_generic; auto with typeclass_instances.
    apply generic_format_bpow. unfold SpecFloat.fexp, SpecFloat.emin. lia. }
  pose proof (bpow_gt_0 radix2 (-1074)).
  destruct (fadd_cases x (fneg y) Fx Fy') as [(F1&E1&B1)|[(B1&E1)|(B1&E1)]].
  - change 0 with (rank f0). apply rank_ltR; try easy. rewrite E1. unfold R_of at 1, f0; simpl B2R. lra.
  - rewrite E1, rank_inf. lia.
  - lra.
Qed.

(** ** Midpoints *)
Lemma R_of_f2 : R_of f2 = 2%R.
Proof. pose proof (grid_fofZ 2 ltac:(lia)) as [_ H]. unfold f2. rewrite H. simpl. lra. Qed.
Lemma R_of_f1 : R_of f1 = 1%R.
Proof. pose proof (grid_fofZ 1 ltac:(lia)) as [_ H]. unfold f1. rewrite H. simpl. lra. Qed.
Lemma R_of_f0 : R_of f0 = 0%R.
Proof. reflexivity. Qed.

Lemma format_double x : fis_finite x = true -> generic_format radix2 fexp64 (2 * R_of x).
Proof.
  intros F. rewrite Rmult_comm. change (IZR 2) with (bp 1).
  destruct (Req_dec (R_of x) 0) as [E|NE].
  - rewrite E, Rmult_0_l. apply generic_format_0.
  - apply generic_format_FLT.
    destruct (FLT_format_B2R 53 1024 _ x) as [[m e] E1 E2 E3].
    exists (Float radix2 m (e+1)); cbn [Fnum Fexp] in *.
    + fold (R_of x) in E1. rewrite E1. unfold F2R; cbn [Fnum Fexp].
      rewrite bpow_plus. ring.
    + exact E2.
    + lia.
Qed.

Lemma midpoint_between a b :
  fis_finite a = true -> fis_finite b = true ->
  (Rabs (R_of a) <= bp 1022)%R -> (Rabs (R_of b) <= bp 1022)%R ->
  rank a <= rank b ->
  let c := fdiv (fadd a b) f2 in
  fis_finite c = true /\ rank a <= rank c <= rank b.
Proof.
  intros Fa Fb Ba Bb L c. apply rank_leR in L; try assumption.
  set (s := RN (R_of a + R_of b)).
  assert (2 * R_of a <= s <= 2 * R_of b)%R as Hs.
  { unfold s. split.
    - rewrite <- (RN_id (2 * R_of a)) by now apply format_double. apply RN_le. lra.
    - rewrite <- (RN_id (2 * R_of b)) by now apply format_double. apply RN_le. lra. }
  assert (bp 1023 = 2 * bp 1022)%R as E1 by (change 1023 with (1 + 1022); rewrite bpow_plus; reflexivity).
  assert (bp 1023 < bp 1024)%R as E2 by (apply bpow_lt; lia).
  apply Rabs_le_inv in Ba. apply Rabs_le_inv in Bb.
  destruct (fadd_R a b Fa Fb) as [Fs Rs].
  { fold s. apply Rabs_def1; lra. }
  fold s in Rs.
  assert (R_of a <= RN (R_of (fadd a b) / R_of f2) <= R_of b)%R as Hc.
  { rewrite Rs, R_of_f2. split.
    - rewrite <- (RN_id (R_of a)) at 1 by apply format_R. apply RN_le. lra.
    - rewrite <- (RN_id (R_of b)) by apply format_R. apply RN_le. lra. }
  pose proof (bpow_gt_0 radix2 1022).
  destruct (fdiv_R (fadd a b) f2 Fs) as [Fc Rc].
  { rewrite R_of_f2. lra. }
  { apply Rabs_def1; lra. }
  fold c in Fc, Rc. split; [exact Fc|]. rewrite <- Rc in Hc.
  split; apply rank_leR; tauto.
Qed.
