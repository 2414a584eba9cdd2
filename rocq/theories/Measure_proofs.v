(** Proofs about area and length. *)
From Coq Require Import ZArith Bool List Reals Lia Lra Psatz.
From Flocq Require Import Core IEEE754.BinarySingleNaN.
From Verif Require Import Base F64 F64Facts Coordinate_model CoordArrays_model CoordSeq_model
  Orientation_spec Measure_model Measure_spec.
Import ListNotations.
Open Scope Z_scope.

(** ** Shoelace sums over integer points *)
(** The sum the code forms, for the chain from its second point on. *)
Fixpoint shoe (x0 : Z) (l : list (Z * Z)) : Z :=
  match l with
  | a :: ((b :: c :: _) as t) => (fst b - x0) * (snd a - snd c) + shoe x0 t
  | _ => 0
  end.
Lemma shoe_trapezoids x0 l : forall a b d,
  trapezoids (a :: b :: l) =
    shoe x0 (a :: b :: l)
    + (fst (last (a :: b :: l) d) - x0) * (snd (last (a :: b :: l) d) + snd (last (removelast (a :: b :: l)) d))
    - (fst a - x0) * (snd a + snd b).
Proof.
  induction l as [|c l IH]; intros [xa ya] [xb yb] d.
  - cbn. ring.
  - specialize (IH (xb, yb) c d).
    change (trapezoids ((xa, ya) :: (xb, yb) :: c :: l)) with
      ((xb - xa) * (ya + yb) + trapezoids ((xb, yb) :: c :: l)).
    rewrite IH. clear IH.
    change (shoe x0 ((xa, ya) :: (xb, yb) :: c :: l)) with
      ((xb - x0) * (ya - snd c) + shoe x0 ((xb, yb) :: c :: l)).
    change (last ((xa, ya) :: (xb, yb) :: c :: l) d) with (last ((xb, yb) :: c :: l) d).
    change (last (removelast ((xa, ya) :: (xb, yb) :: c :: l)) d) with (last (removelast ((xb, yb) :: c :: l)) d).
    cbn [fst snd]. ring.
Qed.
Lemma shoe_closed l : closed_chain l -> shoe (fst (hd (0, 0) l)) l = trapezoids l.
Proof.
  intros (a & m & ->). cbn [hd].
  destruct m as [|b m]; cbn [app].
  - rewrite (shoe_trapezoids (fst a) [] a a a). cbn. ring.
  - rewrite (shoe_trapezoids (fst a) (m ++ [a]) a b a).
    replace (last (a :: b :: m ++ [a]) a) with a.
    2: { change (a :: b :: m ++ [a]) with ((a :: b :: m) ++ [a]). now rewrite last_last. }
    ring.
Qed.
Lemma trapezoids_app l1 a l2 :
  trapezoids (l1 ++ a :: l2) = trapezoids (l1 ++ [a]) + trapezoids (a :: l2).
Proof.
  induction l1 as [|b l1 IH].
  - destruct a as [xa ya]. cbn [app]. cbn [trapezoids]. lia.
  - destruct l1 as [|c l1]; destruct b as [xb yb].
    + destruct a as [xa ya]. cbn [app].
      change (trapezoids ((xb, yb) :: (xa, ya) :: l2)) with ((xa - xb) * (yb + ya) + trapezoids ((xa, ya) :: l2)).
      change (trapezoids [(xb, yb); (xa, ya)]) with ((xa - xb) * (yb + ya) + 0). lia.
    + destruct c as [xc yc]. cbn [app] in *.
      change (trapezoids ((xb, yb) :: (xc, yc) :: l1 ++ a :: l2)) with
        ((xc - xb) * (yb + yc) + trapezoids ((xc, yc) :: l1 ++ a :: l2)).
      change (trapezoids ((xb, yb) :: (xc, yc) :: l1 ++ [a])) with
        ((xc - xb) * (yb + yc) + trapezoids ((xc, yc) :: l1 ++ [a])).
      lia.
Qed.
Lemma trapezoids_rev l : trapezoids (rev l) = - trapezoids l.
Proof.
  induction l as [|a l IH]; [reflexivity|]. cbn [rev].
  destruct l as [|b l]; [destruct a; reflexivity|].
  cbn [rev] in *. rewrite <- app_assoc. cbn [app]. rewrite trapezoids_app, IH.
  destruct a as [xa ya], b as [xb yb]. cbn [trapezoids]. lia.
Qed.
Lemma trapezoids_rotate a l1 b l2 :
  trapezoids ((b :: l2) ++ (a :: l1) ++ [b]) = trapezoids ((a :: l1) ++ (b :: l2) ++ [a]).
Proof.
  rewrite (app_assoc (a :: l1)). change ((b :: l2) ++ (a :: l1) ++ [b]) with ((b :: l2) ++ a :: l1 ++ [b]).
  rewrite trapezoids_app.
  rewrite <- app_assoc. change ((a :: l1) ++ (b :: l2) ++ [a]) with ((a :: l1) ++ b :: l2 ++ [a]).
  rewrite (trapezoids_app (a :: l1)). cbn [app]. lia.
Qed.

(** ** The vector variant *)
Lemma grid_add' e x y n m : -1074 <= e <= 970 -> Z.abs (n + m) <= 2 ^ 53 ->
  grid e x n -> grid e y m -> grid e (fadd x y) (n + m).
Proof. exact (grid_add e x y n m). Qed.

Lemma idx_app_r {A} (l1 l2 : list A) i : idx (l1 ++ l2) (length l1 + i) = idx l2 i.
Proof. unfold idx. now rewrite nth_error_app2, Nat.add_comm, Nat.add_sub by lia. Qed.

Definition area_body (ring : list Coordinate) (x0 : f64) : nat -> f64 -> res f64 :=
  fun i sum =>
    ci <- idx ring i ;;
    let x := fsub (cx ci) x0 in
    cn <- idx ring (i + 1) ;;
    k <- usub i 1 ;;
    cp <- idx ring k ;;
    Ok (fadd sum (fmul x (fsub (cy cp) (cy cn)))).

Lemma area_step pre a b c l x0 s :
  area_body (pre ++ a :: b :: c :: l) x0 (length pre + 1)%nat s =
  Ok (fadd s (fmul (fsub (cx b) x0) (fsub (cy a) (cy c)))).
Proof.
  unfold area_body.
  rewrite (idx_app_r pre _ 1). cbn [idx nth_error bind].
  replace (length pre + 1 + 1)%nat with (length pre + 2)%nat by lia.
  rewrite (idx_app_r pre _ 2). cbn [idx nth_error bind].
  unfold usub. replace (1 <=? length pre + 1)%nat with true by (symmetry; apply Nat.leb_le; lia).
  cbn [bind]. replace (length pre + 1 - 1)%nat with (length pre + 0)%nat by lia.
  rewrite (idx_app_r pre _ 0). reflexivity.
Qed.

Lemma self_le_square k : k <= k * k.
Proof. destruct (Z.le_gt_cases k 0); [pose proof (Z.square_nonneg k); lia|nia]. Qed.

Lemma abs_mul_4 a b k : 0 <= k -> Z.abs a <= 2 * k -> Z.abs b <= 2 * k -> Z.abs (a * b) <= 4 * (k * k).
Proof.
  intros Hk Ha Hb. rewrite Z.abs_mul. replace (4 * (k * k)) with ((2 * k) * (2 * k)) by ring.
  apply Z.mul_le_mono_nonneg; lia.
Qed.

Lemma area_loop e k x0 z0 zs cs :
  -537 <= e <= 485 -> 0 <= k -> Z.abs z0 <= k -> grid e x0 z0 ->
  on_grid e zs cs -> within k zs ->
  forall pre s n, grid (e + e) s n -> (Z.abs n + Z.of_nat (length zs) * (4 * (k * k)) <= 2 ^ 53) ->
  exists r, forN (length cs - 2) (length pre + 1)%nat s (area_body (pre ++ cs) x0) = Ok r /\
    grid (e + e) r (n + shoe z0 zs).
Proof.
  intros He Hk Hz0 G0 G. induction G as [|za a zs cs [Gax Gay] G IH]; intros W pre s n Gs B.
  - exists s. split; [reflexivity|]. cbn [shoe]. now rewrite Z.add_0_r.
  - destruct G as [|zb b zs cs [Gbx Gby] G]; [exists s; split; [reflexivity|]; cbn [shoe]; now rewrite Z.add_0_r|].
    destruct G as [|zc c zs cs [Gcx Gcy] G]; [exists s; split; [reflexivity|]; cbn [shoe]; now rewrite Z.add_0_r|].
    replace (length (a :: b :: c :: cs) - 2)%nat with (S (length (b :: c :: cs) - 2)) by (cbn; lia).
    cbn [forN]. rewrite area_step. cbn [bind].
    inversion W as [|? ? Wa W']; subst. inversion W' as [|? ? Wb W'']; subst.
    inversion W'' as [|? ? Wc _]; subst.
    set (tz := (fst zb - z0) * (snd za - snd zc)).
    assert (Bt : Z.abs tz <= 4 * (k * k)).
    { unfold tz. apply abs_mul_4; [exact Hk|clear - Hz0 Wb; lia|clear - Wa Wc; lia]. }
    cbn [length] in B. rewrite !Nat2Z.inj_succ in B.
    assert (Ln : 0 <= Z.of_nat (length zs)) by lia.
    assert (K2 : 0 <= k * k) by apply Z.square_nonneg.
    pose proof (self_le_square k) as Kk.
    assert (Gs' : grid (e + e) (fadd s (fmul (fsub (cx b) x0) (fsub (cy a) (cy c)))) (n + tz)).
    { assert (0 <= Z.of_nat (length zs) * (4 * (k * k))) by (apply Z.mul_nonneg_nonneg; lia).
      apply grid_add; [lia| |exact Gs|]. lia.
      apply grid_mul; [lia| | |].
      - fold tz. lia.
      - apply grid_sub; [lia| |exact Gbx|exact G0]. lia.
      - apply grid_sub; [lia| |exact Gay|exact Gcy]. lia. }
    specialize (IH W' (pre ++ [a]) _ _ Gs').
    destruct IH as (r & Er & Gr).
    { cbn [length]. rewrite !Nat2Z.inj_succ. lia. }
    exists r. split.
    + rewrite <- Er. rewrite app_length. cbn [length app].
      rewrite <- app_assoc. cbn [app].
      replace (S (length pre + 1)) with (length pre + 1 + 1)%nat by lia. reflexivity.
    + change (shoe z0 (za :: zb :: zc :: zs)) with (tz + shoe z0 (zb :: zc :: zs)).
      now rewrite Z.add_assoc.
Qed.

Lemma on_grid_length e zs cs : on_grid e zs cs -> length zs = length cs.
Proof. induction 1; cbn; congruence. Qed.

Lemma signed_area_grid e k zs cs :
  -536 <= e <= 485 -> 0 <= k -> on_grid e zs cs -> within k zs ->
  Z.of_nat (length cs) * (4 * (k * k)) <= 2 ^ 53 ->
  exists r, signed_area_vec cs = Ok r /\ grid (2 * e - 1) r (shoe (fst (hd (0, 0) zs)) zs).
Proof.
  intros He Hk G W B. pose proof (on_grid_length _ _ _ G) as L.
  unfold signed_area_vec. destruct (Nat.ltb_spec (length cs) 3) as [Lt|Ge].
  - exists f0. split; [reflexivity|].
    replace (shoe (fst (hd (0, 0) zs)) zs) with 0; [apply grid_f0|].
    destruct zs as [|a [|b [|c zs]]]; try reflexivity. cbn in L. lia.
  - destruct G as [|z0 c0 zs cs [Gx Gy] G]; [cbn in Ge; lia|].
    cbn [idx nth_error bind]. cbv zeta. cbn [hd].
    inversion W as [|? ? W0 W']; subst.
    destruct (area_loop e k (cx c0) (fst z0) (z0 :: zs) (c0 :: cs)) with (pre := @nil Coordinate) (s := f0) (n := 0)
      as (r & Er & Gr); try assumption; try lia.
    + constructor; [split; assumption|exact G].
    + apply grid_f0.
    + cbn [length Nat.add app] in Er.
      match goal with |- exists r0, bind ?f ?k0 = _ /\ _ =>
        change f with (forN (S (length cs) - 2) 1 f0 (area_body (c0 :: cs) (cx c0))) end.
      rewrite Er. cbn [bind]. eexists. split; [reflexivity|].
      rewrite Z.add_0_l in Gr. replace (2 * e - 1) with (e + e - 1) by lia.
      apply grid_div2; [lia| |exact Gr|].
      2: { pose proof (proj2 (grid_fofZ 2 ltac:(cbn; lia))) as R2. rewrite R2. cbn. lra. }
      clear - W W0 B L Hk. cbn [length] in *.
      assert (S1 : forall l, within k l -> Z.abs (shoe (fst z0) l) <= Z.of_nat (length l) * (4 * (k * k))).
      { clear - W0 Hk. induction l as [|a l IH]; intros Wl; [cbn; lia|].
        inversion Wl as [|? ? Wa Wl']; subst. specialize (IH Wl').
        destruct l as [|b l]; [cbn [shoe length]; nia|].
        destruct l as [|c l]; [cbn [shoe length]; nia|].
        change (shoe (fst z0) (a :: b :: c :: l)) with
          ((fst b - fst z0) * (snd a - snd c) + shoe (fst z0) (b :: c :: l)).
        inversion Wl' as [|? ? Wb Wl'']; subst. inversion Wl'' as [|? ? Wc _]; subst.
        assert (Z.abs ((fst b - fst z0) * (snd a - snd c)) <= 4 * (k * k)).
        { apply abs_mul_4; [exact Hk|clear - W0 Wb; lia|clear - Wa Wc; lia]. }
        change (length (a :: b :: c :: l)) with (S (length (b :: c :: l))).
        rewrite Nat2Z.inj_succ. lia. }
      specialize (S1 _ W). cbn [length] in S1. rewrite L in S1. lia.
Qed.

(** ** The sequence variant *)
Lemma coord_into s i c : (i < seq_size s)%nat ->
  seq_coord_into s i c = Ok (set_coordinate c (nth i (scoords s) coord_default)).
Proof. intros H. unfold seq_coord_into. now rewrite (idx_nth _ _ coord_default). Qed.

Lemma signed_area_agree s : signed_area_seq s = signed_area_vec (scoords s).
Proof.
  unfold signed_area_seq, signed_area_vec. fold (seq_size s).
  destruct (Nat.ltb_spec (seq_size s) 3) as [Lt|Ge]; [reflexivity|]. cbv zeta.
  rewrite !coord_into by lia. cbn [bind].
  rewrite (idx_nth (scoords s) 0 coord_default) by (fold (seq_size s); lia). cbn [bind].
  set (nt := fun i => nth i (scoords s) coord_default).
  change (nth 0 (scoords s) coord_default) with (nt 0%nat).
  change (nth 1 (scoords s) coord_default) with (nt 1%nat).
  change (cx (set_coordinate (seq_create_default s) (nt 0%nat))) with (cx (nt 0%nat)).
  set (x0 := cx (nt 0%nat)).
  assert (Gen : forall n lo p0 p1 p2 sum,
    (1 <= lo)%nat -> (lo + n < seq_size s)%nat ->
    cy p1 = cy (nt (lo - 1)%nat) -> cx p2 = fsub (cx (nt lo)) x0 -> cy p2 = cy (nt lo) ->
    bind (forN n lo (p0, p1, p2, sum) (fun i '(p0, p1, p2, sum) =>
      p2' <- seq_coord_into s (i + 1) p2 ;;
      Ok (set_y p0 (cy p1), set_y (set_x p1 (cx p2)) (cy p2), set_x p2' (fsub (cx p2') x0),
          fadd sum (fmul (cx (set_y (set_x p1 (cx p2)) (cy p2)))
            (fsub (cy (set_y p0 (cy p1))) (cy (set_x p2' (fsub (cx p2') x0))))))))
      (fun st => Ok (fdiv (snd st) (fofZ 2))) =
    bind (forN n lo sum (area_body (scoords s) x0)) (fun r => Ok (fdiv r (fofZ 2)))).
  { induction n as [|n IH]; intros lo p0 p1 p2 sum H1 H2 E1 E2 E3; [reflexivity|].
    cbn [forN]. rewrite coord_into by lia. cbn [bind].
    unfold area_body at 1. unfold usub.
    rewrite !(idx_nth (scoords s) _ coord_default) by (fold (seq_size s); lia). cbn [bind].
    replace (1 <=? lo)%nat with true by (symmetry; apply Nat.leb_le; lia). cbn [bind].
    rewrite !(idx_nth (scoords s) _ coord_default) by (fold (seq_size s); lia). cbn [bind].
    rewrite IH; try lia.
    - cbn [cx cy set_coordinate set_x set_y]. rewrite E1, E2. reflexivity.
    - cbn [cx cy set_coordinate set_x set_y]. rewrite E3. f_equal. f_equal. lia.
    - replace (lo + 1)%nat with (S lo) by lia. reflexivity.
    - replace (lo + 1)%nat with (S lo) by lia. reflexivity. }
  exact (Gen (seq_size s - 2)%nat 1%nat (seq_create_default s)
    (set_coordinate (seq_create_default s) (nt 0%nat))
    (set_x (set_coordinate (seq_create_default s) (nt 1%nat)) (fsub (cx (nt 1%nat)) x0))
    f0 ltac:(lia) ltac:(lia) eq_refl eq_refl eq_refl).
Qed.

(** ** Length *)
(** The sum of the segment lengths, added from left to right. *)
Fixpoint seg_sum (hypot : f64 -> f64 -> f64) (acc : f64) (l : list Coordinate) : f64 :=
  match l with
  | a :: ((b :: _) as t) => seg_sum hypot (fadd acc (hypot (fsub (cx b) (cx a)) (fsub (cy b) (cy a)))) t
  | _ => acc
  end.
Lemma length_seg_sum hypot s : length_of_line hypot s = Ok (seg_sum hypot f0 (scoords s)).
Proof.
  unfold length_of_line.
  destruct (Nat.leb_spec (seq_size s) 1) as [Le|Gt].
  - unfold seq_size in Le. destruct (scoords s) as [|a [|b l]]; cbn in *; try reflexivity. lia.
  - cbv zeta. rewrite coord_into by lia. cbn [bind].
    unfold seq_coord_into, seq_size in *. destruct s as [d m cs]. cbn [scoords] in *.
    destruct cs as [|a cs]; [cbn in Gt; lia|]. clear Gt.
    assert (Gen : forall cs pre a p acc,
      bind (forN (length cs) (length pre + 1) (p, cx a, cy a, acc) (fun i '(p, x0, y0, len) =>
         p <- (o <- idx (pre ++ a :: cs) i ;; Ok (set_coordinate p o)) ;;
         let x1 := cx p in let y1 := cy p in
         let dx := fsub x1 x0 in let dy := fsub y1 y0 in
         Ok (p, x1, y1, fadd len (hypot dx dy)))) (fun st => Ok (snd st)) =
      Ok (seg_sum hypot acc (a :: cs))).
    { clear. induction cs as [|b cs IH]; intros pre a p acc; [reflexivity|].
      cbn [length forN]. rewrite (idx_app_r pre _ 1). cbn [idx nth_error bind]. cbv zeta.
      specialize (IH (pre ++ [a]) b (set_coordinate p b)
        (fadd acc (hypot (fsub (cx b) (cx a)) (fsub (cy b) (cy a))))).
      rewrite <- app_assoc in IH. cbn [app] in IH.
      rewrite app_length in IH. cbn [length] in IH.
      replace (S (length pre + 1)) with (length pre + 1 + 1)%nat by lia.
      exact IH. }
    replace (length (a :: cs) - 1)%nat with (length cs) by (cbn; lia).
    exact (Gen cs [] a (set_coordinate (seq_create_default (mkSeq d m (a :: cs))) a) f0).
Qed.
Lemma acc_step a h : fleb f0 a = true -> (nn h -> fleb f0 h = true) -> nn (fadd a h) ->
  fleb a (fadd a h) = true.
Proof.
  intros Ha Hh N. destruct (fleb_nn _ _ Ha) as [_ Na].
  assert (Nh : nn h) by (destruct h as [| | |]; [exact I || easy| easy | now destruct a | easy]).
  specialize (Hh Nh). rewrite fleb_rank in * by (assumption || reflexivity).
  destruct (fis_finite h) eqn:F.
  - apply Z.leb_le. apply fadd_nonneg_ge; try assumption.
    apply Z.leb_le in Hh. exact Hh.
  - destruct h as [s|[]| |s m e H]; try easy.
    replace (rank (fadd a (B754_infinity false))) with (2 ^ 2098).
    + apply Z.leb_le. now apply rank_le_inf.
    + destruct a as [s|[]| |s m e H]; try easy.
Qed.
Lemma seg_sum_nn hypot l : forall acc, nn (seg_sum hypot acc l) -> nn acc.
Proof.
  induction l as [|c l IH]; intros acc N; [exact N|]. destruct l as [|d l]; [exact N|].
  apply IH in N. destruct acc; easy.
Qed.
Lemma acc_step2 a h : fleb f0 a = true -> (nn h -> fleb f0 h = true) -> nn (fadd a h) ->
  fleb f0 (fadd a h) = true.
Proof.
  intros Ha Hh N. pose proof (acc_step a h Ha Hh N) as L.
  destruct (fleb_nn _ _ Ha) as [N0 Na]. rewrite fleb_rank in * by assumption.
  apply Z.leb_le in Ha, L. apply Z.leb_le. lia.
Qed.
Lemma seg_sum_mono hypot m l : (forall x y, nn (hypot x y) -> fleb f0 (hypot x y) = true) ->
  forall acc, fleb f0 acc = true -> nn (seg_sum hypot acc (l ++ m)) ->
  fleb (seg_sum hypot acc l) (seg_sum hypot acc (l ++ m)) = true.
Proof.
  intros Hh.
  assert (Ge : forall l acc, fleb f0 acc = true -> nn (seg_sum hypot acc l) -> fleb acc (seg_sum hypot acc l) = true).
  { clear l. induction l as [|a l IH]; intros acc Ha N; [|destruct l as [|b l]].
    1, 2: cbn [seg_sum]; destruct (fleb_nn _ _ Ha); rewrite fleb_rank by assumption; apply Z.leb_refl.
    change (seg_sum hypot acc (a :: b :: l)) with
      (seg_sum hypot (fadd acc (hypot (fsub (cx b) (cx a)) (fsub (cy b) (cy a)))) (b :: l)) in *.
    pose proof (seg_sum_nn _ _ _ N) as N'.
    pose proof (acc_step _ _ Ha (Hh _ _) N') as L.
    specialize (IH _ (acc_step2 _ _ Ha (Hh _ _) N') N).
    destruct (fleb_nn _ _ Ha) as [N0 Na]. rewrite fleb_rank in * by assumption.
    apply Z.leb_le in L, IH. apply Z.leb_le. lia. }
  induction l as [|a l IH]; intros acc Ha N; [|destruct l as [|b l]].
  - apply Ge; assumption.
  - exact (Ge _ acc Ha N).
  - cbn [app] in *.
    change (seg_sum hypot acc (a :: b :: l ++ m)) with
      (seg_sum hypot (fadd acc (hypot (fsub (cx b) (cx a)) (fsub (cy b) (cy a)))) (b :: l ++ m)) in *.
    change (seg_sum hypot acc (a :: b :: l)) with
      (seg_sum hypot (fadd acc (hypot (fsub (cx b) (cx a)) (fsub (cy b) (cy a)))) (b :: l)).
    pose proof (seg_sum_nn _ _ _ N) as N'.
    exact (IH _ (acc_step2 _ _ Ha (Hh _ _) N') N).
Qed.

(** Axis-parallel grid lines. *)
Lemma manhattan_nonneg l : 0 <= manhattan l.
Proof. induction l as [|a [|b l] IH]; cbn [manhattan] in *; lia. Qed.
Lemma seg_sum_grid hypot e zs cs : -1074 <= e <= 970 ->
  (forall x y, fis_finite x = true -> R_of y = 0%R -> fis_finite y = true ->
     hypot x y = fabs x /\ hypot y x = fabs x) ->
  on_grid e zs cs -> rectilinear zs ->
  forall acc n, 0 <= n -> grid e acc n -> n + manhattan zs <= 2 ^ 53 ->
  grid e (seg_sum hypot acc cs) (n + manhattan zs).
Proof.
  intros He Hh G. induction G as [|za a zs cs [Gax Gay] G IH]; intros Rl acc n Hn Ga B.
  - cbn [seg_sum manhattan]. now rewrite Z.add_0_r.
  - destruct G as [|zb b zs cs [Gbx Gby] G].
    + cbn [seg_sum manhattan]. now rewrite Z.add_0_r.
    + change (seg_sum hypot acc (a :: b :: cs)) with
        (seg_sum hypot (fadd acc (hypot (fsub (cx b) (cx a)) (fsub (cy b) (cy a)))) (b :: cs)).
      change (manhattan (za :: zb :: zs)) with
        (Z.abs (fst zb - fst za) + Z.abs (snd zb - snd za) + manhattan (zb :: zs)) in *.
      pose proof (manhattan_nonneg (zb :: zs)).
      assert (Gx : grid e (fsub (cx b) (cx a)) (fst zb - fst za)) by (apply grid_sub; [lia|lia|assumption..]).
      assert (Gy : grid e (fsub (cy b) (cy a)) (snd zb - snd za)) by (apply grid_sub; [lia|lia|assumption..]).
      set (d := Z.abs (fst zb - fst za) + Z.abs (snd zb - snd za)) in *.
      assert (Gd : grid e (hypot (fsub (cx b) (cx a)) (fsub (cy b) (cy a))) d).
      { destruct (Rl [] za zb zs eq_refl) as [E|E].
        - destruct (Hh (fsub (cy b) (cy a)) (fsub (cx b) (cx a))) as [_ ->]; [apply Gy| |apply Gx|].
          + rewrite (proj2 Gx). replace (fst zb - fst za) with 0 by lia. apply Rmult_0_l.
          + replace d with (Z.abs (snd zb - snd za)) by (unfold d; lia). now apply grid_abs.
        - destruct (Hh (fsub (cx b) (cx a)) (fsub (cy b) (cy a))) as [-> _]; [apply Gx| |apply Gy|].
          + rewrite (proj2 Gy). replace (snd zb - snd za) with 0 by lia. apply Rmult_0_l.
          + replace d with (Z.abs (fst zb - fst za)) by (unfold d; lia). now apply grid_abs. }
      assert (0 <= d) by (unfold d; lia).
      rewrite Z.add_assoc. apply IH.
      * intros l1 p q l2 El. apply (Rl (za :: l1) p q l2). now rewrite El.
      * lia.
      * apply grid_add; [lia|lia|assumption..].
      * lia.
Qed.
