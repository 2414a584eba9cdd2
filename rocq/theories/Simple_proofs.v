(** Simple rings: the winding numbers on the two sides of a simple ring are
    the same all along the ring, so the turn at the top decides the sign of
    the area. *)
From Coq Require Import ZArith List Reals Lia Lra Permutation.
From Verif Require Import Simple_spec Centroid_spec.
Import ListNotations.
Open Scope R_scope.

Notation pt := (R * R)%type.
Definition dt (p q r : pt) : R := (fst q - fst p) * (snd r - snd p) - (snd q - snd p) * (fst r - fst p).
(** Signed crossing of the ray from [q] to the right with the step [c d]. *)
Definition cr (c d q : pt) : Z :=
  if Rle_dec (snd c) (snd q) then
    if Rlt_dec (snd q) (snd d) then if Rlt_dec 0 (dt c d q) then 1%Z else 0%Z else 0%Z
  else
    if Rle_dec (snd d) (snd q) then if Rlt_dec (dt c d q) 0 then (-1)%Z else 0%Z else 0%Z.
(** Points to the right of the upward step [q r]. *)
Definition st_up (q r p : pt) : Z :=
  if Rlt_dec (snd q) (snd p) then
    if Rle_dec (snd p) (snd r) then if Rlt_dec (dt q r p) 0 then 1%Z else 0%Z else 0%Z
  else 0%Z.
Definition st (q r p : pt) : Z := (st_up q r p - st_up r q p)%Z.
Definition ev (p : pt) (d : pt) (y : R) : R := fst p + (fst d - fst p) * (y - snd p) / (snd d - snd p).

Lemma sign_scale k D : 0 < k -> (0 < k * D <-> 0 < D) /\ (k * D < 0 <-> D < 0).
Proof. intros H. split; split; intros; nra. Qed.
Lemma ev_along p d y : snd p <> snd d -> ev p d y = fst (along p d ((y - snd p) / (snd d - snd p))) /\ y = snd (along p d ((y - snd p) / (snd d - snd p))).
Proof. intros H. unfold ev, along. cbn [fst snd]. split; field; lra. Qed.
Lemma ev_swap p d y : snd p <> snd d -> ev d p y = ev p d y.
Proof. intros H. unfold ev. field. lra. Qed.
Lemma dt_up c d q : snd c < snd d -> (0 < dt c d q <-> fst q < ev c d (snd q)) /\ (dt c d q < 0 <-> ev c d (snd q) < fst q).
Proof.
  intros H. assert (dt c d q = (snd d - snd c) * (ev c d (snd q) - fst q)) as ->.
  { unfold dt, ev. field. lra. }
  destruct (sign_scale (snd d - snd c) (ev c d (snd q) - fst q)); [lra|]. split; split; intros; lra.
Qed.
Lemma dt_flip p q r : dt q p r = - dt p q r.
Proof. unfold dt. ring. Qed.
Lemma cr_flip c d q : cr d c q = (- cr c d q)%Z.
Proof.
  unfold cr. rewrite (dt_flip c d).
  destruct (Rle_dec (snd c) (snd q)), (Rle_dec (snd d) (snd q)), (Rlt_dec (snd q) (snd c)), (Rlt_dec (snd q) (snd d)); try lra;
  destruct (Rlt_dec 0 (- dt c d q)), (Rlt_dec 0 (dt c d q)), (Rlt_dec (- dt c d q) 0), (Rlt_dec (dt c d q) 0); try lra; reflexivity.
Qed.
Lemma st_flip q r p : st r q p = (- st q r p)%Z.
Proof. unfold st. lia. Qed.

(** An affine function without zero on an interval keeps its sign. *)
Lemma affine_sign (A B lo hi : R) : (forall y, lo <= y <= hi -> A + B * y <> 0) ->
  forall y1 y2, lo <= y1 <= hi -> lo <= y2 <= hi -> 0 < A + B * y1 -> 0 < A + B * y2.
Proof.
  intros N y1 y2 H1 H2 P. destruct (Rlt_dec 0 (A + B * y2)) as [|Q]; [assumption|exfalso].
  pose proof (N y2 H2). assert (A + B * y2 < 0) by lra.
  assert (B <> 0) as Nb. { intros ->. lra. }
  apply (N (- A / B)).
  - destruct (Rlt_dec 0 B) as [Pb|Pb].
    + assert (y2 <= - A / B <= y1); [|lra]. split; apply (Rmult_le_reg_r B); try assumption; unfold Rdiv; rewrite ?Rmult_assoc, ?Rinv_l by assumption; lra.
    + assert (y1 <= - A / B <= y2); [|lra]. split; apply (Rmult_le_reg_r (- B)); try lra;
      replace (- A / B * - B) with A by (field; assumption); lra.
  - field. assumption.
Qed.
Definition apart (q r c d : pt) : Prop := forall s t, 0 <= s <= 1 -> 0 <= t <= 1 -> along q r s <> along c d t.
Lemma frac01 a b y : a < b -> a <= y <= b -> 0 <= (y - a) / (b - a) <= 1.
Proof. intros H Y. split; apply (Rmult_le_reg_r (b - a)); try lra; unfold Rdiv; rewrite Rmult_assoc, Rinv_l; lra. Qed.
Lemma overlap q r c d : apart q r c d -> snd q < snd r -> snd c < snd d ->
  forall y1 y2, snd q <= y1 <= snd r -> snd c <= y1 <= snd d -> snd q <= y2 <= snd r -> snd c <= y2 <= snd d ->
  ev q r y1 < ev c d y1 -> ev q r y2 < ev c d y2.
Proof.
  intros Ap Hq Hc y1 y2 A1 B1 A2 B2 L.
  set (B := (fst d - fst c) / (snd d - snd c) - (fst r - fst q) / (snd r - snd q)).
  set (A := ev c d 0 - ev q r 0).
  assert (forall y, ev c d y - ev q r y = A + B * y) as F by (intros y; unfold A, B, ev; field; lra).
  enough (0 < A + B * y2) by (rewrite <- F in H; lra).
  apply (affine_sign A B (Rmax (snd q) (snd c)) (Rmin (snd r) (snd d))) with (y1 := y1).
  - intros y Hy E. rewrite <- F in E.
    assert (snd q <= y <= snd r /\ snd c <= y <= snd d) as (Y1 & Y2).
    { pose proof (Rmax_l (snd q) (snd c)). pose proof (Rmax_r (snd q) (snd c)). pose proof (Rmin_l (snd r) (snd d)). pose proof (Rmin_r (snd r) (snd d)). lra. }
    apply (Ap _ _ (frac01 _ _ _ Hq Y1) (frac01 _ _ _ Hc Y2)).
    destruct (ev_along q r y), (ev_along c d y); try lra.
    apply injective_projections; lra.
  - split; [apply Rmax_lub|apply Rmin_glb]; lra.
  - split; [apply Rmax_lub|apply Rmin_glb]; lra.
  - rewrite <- F. lra.
Qed.
Lemma apart_sym q r c d : apart q r c d -> apart c d q r.
Proof. intros H s t Hs Ht E. now apply (H t s). Qed.
Lemma along_flip a b t : along b a t = along a b (1 - t).
Proof. unfold along. f_equal; ring. Qed.
Lemma apart_flip q r c d : apart q r c d -> apart r q c d.
Proof. intros H s t Hs Ht E. rewrite along_flip in E. apply (H (1 - s) t); [lra|assumption..]. Qed.

(** Moving [q] to [r] upward past the upward step [c d]. *)
Lemma flux_up q r c d : apart q r c d -> snd q < snd r -> snd c < snd d ->
  (cr c d r - cr c d q = st_up q r c - st_up q r d)%Z.
Proof.
  intros Ap Hq Hc. pose proof (overlap q r c d Ap Hq Hc) as O.
  assert (ev q r (snd q) = fst q) as Eq by (unfold ev; field; lra).
  assert (ev q r (snd r) = fst r) as Er by (unfold ev; field; lra).
  assert (ev c d (snd c) = fst c) as Ec by (unfold ev; field; lra).
  assert (ev c d (snd d) = fst d) as Ed by (unfold ev; field; lra).
  unfold cr, st_up.
  destruct (dt_up c d q Hc) as ((U1 & U2) & (U3 & U4)), (dt_up c d r Hc) as ((V1 & V2) & (V3 & V4)),
    (dt_up q r c Hq) as ((W1 & W2) & (W3 & W4)), (dt_up q r d Hq) as ((X1 & X2) & (X3 & X4)).
  rewrite <- Eq in U2, U1. rewrite <- Er in V1, V2. rewrite <- Ec in W3, W4. rewrite <- Ed in X3, X4.
  destruct (Rle_dec (snd c) (snd r)), (Rlt_dec (snd r) (snd d)), (Rle_dec (snd d) (snd r)), (Rle_dec (snd c) (snd q)),
    (Rlt_dec (snd q) (snd d)), (Rle_dec (snd d) (snd q)), (Rlt_dec (snd q) (snd c)); try lra;
  destruct (Rlt_dec 0 (dt c d q)), (Rlt_dec 0 (dt c d r)), (Rlt_dec (dt q r c) 0), (Rlt_dec (dt q r d) 0); try reflexivity; exfalso;
  match goal with
  | H : ~ ?X |- _ => apply H; clear H;
     first [apply U2 | apply V2 | apply W4 | apply X4];
     first [ apply (O (snd q)); [lra..|apply U1; assumption]
           | apply (O (snd r)); [lra..|apply V1; assumption]
           | apply (O (snd c)); [lra..|apply W3; assumption]
           | apply (O (snd d)); [lra..|apply X3; assumption] ]
  end.
Qed.
Lemma st_up_0 q r p : snd r <= snd q -> st_up q r p = 0%Z.
Proof. intros H. unfold st_up. destruct (Rlt_dec (snd q) (snd p)), (Rle_dec (snd p) (snd r)); try reflexivity; lra. Qed.
Lemma cr_level c d q : snd c = snd d -> cr c d q = 0%Z.
Proof. intros H. unfold cr. destruct (Rle_dec (snd c) (snd q)), (Rlt_dec (snd q) (snd d)), (Rle_dec (snd d) (snd q)); try reflexivity; lra. Qed.
(** A level step keeps on one side of an upward one. *)
Lemma level_side q r c d : apart q r c d -> snd q < snd r -> snd c = snd d -> snd q <= snd c <= snd r ->
  ev q r (snd c) < fst c -> ev q r (snd c) < fst d.
Proof.
  intros Ap Hq E Y L. destruct (Rlt_dec (ev q r (snd c)) (fst d)) as [|N]; [assumption|exfalso].
  destruct (ev_along q r (snd c)) as (A1 & A2); [lra|].
  apply (Ap _ ((fst c - ev q r (snd c)) / (fst c - fst d)) (frac01 _ _ _ Hq Y)).
  - assert (- fst c < - fst d) by lra. replace ((fst c - ev q r (snd c)) / (fst c - fst d)) with ((- ev q r (snd c) - - fst c) / (- fst d - - fst c)) by (field; lra).
    apply frac01; lra.
  - apply injective_projections.
    + rewrite <- A1. unfold along. cbn [fst]. field. lra.
    + rewrite <- A2. unfold along. cbn [snd]. rewrite <- E. ring.
Qed.
Lemma flux_level q r c d : apart q r c d -> snd q < snd r -> snd c = snd d -> st_up q r c = st_up q r d.
Proof.
  intros Ap Hq E. unfold st_up. rewrite <- E.
  destruct (Rlt_dec (snd q) (snd c)); [|reflexivity]. destruct (Rle_dec (snd c) (snd r)); [|reflexivity].
  destruct (dt_up q r c Hq) as (_ & (W3 & W4)), (dt_up q r d Hq) as (_ & (X3 & X4)). rewrite <- E in X3, X4.
  destruct (Rlt_dec (dt q r c) 0), (Rlt_dec (dt q r d) 0); try reflexivity; exfalso.
  - apply n, X4, (level_side q r c d Ap); lra.
  - apply n, W4. rewrite E. apply (level_side q r d c); try lra.
    + apply apart_sym, apart_flip, apart_sym, Ap.
    + rewrite <- E. now apply X3.
Qed.
Lemma flux_flat q r c d : apart q r c d -> snd q = snd r -> cr c d r = cr c d q.
Proof.
  assert (forall q r c d, apart q r c d -> snd q = snd r -> snd c < snd d -> cr c d r = cr c d q) as Up.
  { clear. intros q r c d Ap E H. unfold cr. rewrite <- E.
    destruct (Rle_dec (snd c) (snd q)); [|destruct (Rle_dec (snd d) (snd q)); [lra|reflexivity]].
    destruct (Rlt_dec (snd q) (snd d)); [|reflexivity].
    destruct (dt_up c d q H) as ((U1 & U2) & (U3 & U4)), (dt_up c d r H) as ((V1 & V2) & (V3 & V4)). rewrite <- E in V1, V2, V3, V4.
    assert (forall x y, apart x y c d -> snd x = snd y -> snd c <= snd x <= snd d -> fst x < ev c d (snd x) -> fst y < ev c d (snd x)) as K.
    { clear - H. intros x y Ap E Y L. destruct (Rlt_dec (fst y) (ev c d (snd x))) as [|N]; [assumption|exfalso].
      apply apart_sym in Ap. destruct (ev_along c d (snd x)) as (A1 & A2); [lra|].
      apply (Ap _ ((ev c d (snd x) - fst x) / (fst y - fst x)) (frac01 _ _ _ H Y)).
      - apply frac01; lra.
      - apply injective_projections.
        + rewrite <- A1. unfold along. cbn [fst]. field. lra.
        + rewrite <- A2. unfold along. cbn [snd]. rewrite <- E. ring. }
    destruct (Rlt_dec 0 (dt c d r)), (Rlt_dec 0 (dt c d q)); try reflexivity; exfalso.
    - apply n, U2. rewrite E. apply (K r q); [apply apart_flip, Ap|lra..|rewrite <- E; now apply V1].
    - apply n, V2. apply (K q r); [assumption|lra..|now apply U1]. }
  intros Ap E. destruct (Rtotal_order (snd c) (snd d)) as [H|[H|H]].
  - now apply Up.
  - now rewrite !cr_level.
  - rewrite !(cr_flip d c). f_equal. apply Up; [|assumption..]. apply apart_sym, apart_flip, apart_sym, Ap.
Qed.
(** Moving [q] to [r] without touching the step [c d]. *)
Lemma flux q r c d : apart q r c d -> (cr c d r - cr c d q = st q r c - st q r d)%Z.
Proof.
  assert (forall q r, apart q r c d -> snd q < snd r -> (cr c d r - cr c d q = st q r c - st q r d)%Z) as Up.
  { clear. intros q r Ap H. unfold st. rewrite !(st_up_0 r q) by lra.
    destruct (Rtotal_order (snd c) (snd d)) as [Q|[Q|Q]].
    - rewrite (flux_up q r c d) by assumption. lia.
    - rewrite !cr_level by assumption. rewrite (flux_level q r c d) by assumption. lia.
    - rewrite !(cr_flip d c). pose proof (flux_up q r d c) as F. rewrite <- !Z.opp_sub_distr || idtac.
      specialize (F (apart_sym _ _ _ _ (apart_flip _ _ _ _ (apart_sym _ _ _ _ Ap))) H Q). lia. }
  intros Ap. destruct (Rtotal_order (snd q) (snd r)) as [Q|[Q|Q]].
  - now apply Up.
  - rewrite (flux_flat q r c d) by assumption. unfold st. rewrite !(st_up_0 q r), !(st_up_0 r q) by lra. lia.
  - rewrite !(st_flip r q). specialize (Up r q (apart_flip _ _ _ _ Ap) Q). lia.
Qed.

(** ** Chains *)
Fixpoint pairs (l : list pt) : list (pt * pt) :=
  match l with a :: ((b :: _) as t) => (a, b) :: pairs t | _ => [] end.
Fixpoint wind (es : list (pt * pt)) (q : pt) : Z :=
  match es with e :: t => (cr (fst e) (snd e) q + wind t q)%Z | [] => 0%Z end.
Lemma wind_app a b q : wind (a ++ b) q = (wind a q + wind b q)%Z.
Proof. induction a as [|e a IH]; cbn [wind app]; [lia|]. rewrite IH. lia. Qed.
Lemma wind_perm a b q : Permutation a b -> wind a q = wind b q.
Proof. induction 1; cbn [wind]; lia. Qed.
Lemma wind_flux q r a l z : (forall e, In e (pairs (a :: l ++ [z])) -> apart q r (fst e) (snd e)) ->
  (wind (pairs (a :: l ++ [z])) r - wind (pairs (a :: l ++ [z])) q = st q r a - st q r z)%Z.
Proof.
  revert a. induction l as [|b l IH]; intros a H.
  - cbn [app pairs wind fst snd]. pose proof (flux q r a z (H _ (or_introl eq_refl))). lia.
  - cbn [app]. change (pairs (a :: b :: l ++ [z])) with ((a, b) :: pairs (b :: l ++ [z])) in *. cbn [wind fst snd].
    pose proof (flux q r a b (H _ (or_introl eq_refl))). specialize (IH b (fun e He => H e (or_intror He))). lia.
Qed.
(** ** Around a vertex *)
Definition hs (a v : pt) : Z :=
  if Rlt_dec (snd a) (snd v) then 1%Z else if Rlt_dec (snd v) (snd a) then 0%Z else if Rlt_dec (fst v) (fst a) then 1%Z else 0%Z.
(** The steps [a v] and [v b] do not fold back. *)
Definition no_fold (a v b : pt) : Prop :=
  dt a v b = 0 -> (snd a < snd v /\ snd v < snd b) \/ (snd b < snd v /\ snd v < snd a) \/
    (snd a = snd v /\ snd v = snd b /\ ((fst a < fst v /\ fst v < fst b) \/ (fst b < fst v /\ fst v < fst a))).
Lemma between a v t : 0 < t < 1 -> (a < v -> a < a + t * (v - a) < v) /\ (v < a -> v < a + t * (v - a) < a) /\ (a = v -> a + t * (v - a) = v).
Proof. intros H. repeat split; intros; nra. Qed.
Lemma around a v b t t' : 0 < t < 1 -> 0 < t' < 1 -> no_fold a v b ->
  (cr v b (along a v t) + hs a v = st (along a v t) v b - st v (along v b t') a + cr a v (along v b t') + hs v b)%Z.
Proof.
  intros Ht Ht' N. set (q := along a v t). set (r := along v b t').
  assert (dt v b q = (1 - t) * dt a v b) as E1 by (unfold dt, q, along; cbn [fst snd]; ring).
  assert (dt q v b = (1 - t) * dt a v b) as E2 by (unfold dt, q, along; cbn [fst snd]; ring).
  assert (dt v q b = - ((1 - t) * dt a v b)) as E3 by (unfold dt, q, along; cbn [fst snd]; ring).
  assert (dt v r a = t' * dt a v b) as E4 by (unfold dt, r, along; cbn [fst snd]; ring).
  assert (dt r v a = - (t' * dt a v b)) as E5 by (unfold dt, r, along; cbn [fst snd]; ring).
  assert (dt a v r = t' * dt a v b) as E6 by (unfold dt, r, along; cbn [fst snd]; ring).
  assert ((snd a < snd v -> snd a < snd q < snd v) /\ (snd v < snd a -> snd v < snd q < snd a) /\ (snd a = snd v -> snd q = snd v)) as (Q1 & Q2 & Q3) by (apply between; exact Ht).
  assert ((snd v < snd b -> snd v < snd r < snd b) /\ (snd b < snd v -> snd b < snd r < snd v) /\ (snd v = snd b -> snd r = snd b)) as (R1 & R2 & R3) by (apply between; exact Ht').
  destruct (sign_scale (1 - t) (dt a v b) ltac:(lra)) as ((S1 & S2) & (S3 & S4)).
  destruct (sign_scale t' (dt a v b) ltac:(lra)) as ((T1 & T2) & (T3 & T4)).
  unfold st, st_up, cr. rewrite E1, E2, E3, E4, E5, E6.
  assert (snd a = snd v -> dt a v b = (fst v - fst a) * (snd b - snd a)) as F1 by (unfold dt; intros ->; ring).
  assert (snd v = snd b -> dt a v b = (snd v - snd a) * (fst v - fst b)) as F2 by (unfold dt; intros ->; ring).
  unfold no_fold in N. generalize dependent (dt a v b). intros D.
  generalize ((1 - t) * D) (t' * D). generalize dependent (snd q). generalize dependent (snd r). intros yr R1 R2 R3 yq Q1 Q2 Q3 D1 D2. intros.
  clear E1 E2 E3 E4 E5 E6 q r.
  assert (D = 0 -> D1 = 0 /\ D2 = 0) as Z0 by (intros; split; lra).
  unfold hs.
  destruct (Rtotal_order (snd a) (snd v)) as [Ha|[Ha|Ha]]; destruct (Rtotal_order (snd v) (snd b)) as [Hb|[Hb|Hb]];
  try specialize (Q1 Ha); try specialize (Q2 Ha); try specialize (Q3 Ha); try specialize (R1 Hb); try specialize (R2 Hb); try specialize (R3 Hb);
  try specialize (F1 Ha); try specialize (F2 Hb).
  all: destruct (Rtotal_order D 0) as [HD|[HD|HD]].
  all: try specialize (N HD); try specialize (Z0 HD); try specialize (S2 HD); try specialize (S4 HD); try specialize (T2 HD); try specialize (T4 HD).
  all: try (exfalso; lra).
  all: repeat match goal with |- context [Rlt_dec ?x ?y] => destruct (Rlt_dec x y); try (exfalso; lra) | |- context [Rle_dec ?x ?y] => destruct (Rle_dec x y); try (exfalso; lra) end.
  all: try lia.
  all: exfalso; try (clear - F1 HD Ha Hb r3; nra); try (clear - F2 HD Ha Hb r3; nra); try (clear - F1 HD Ha Hb n5; nra); try (clear - F2 HD Ha Hb n5; nra); try nra.
Qed.

(** ** Rings *)
Definition closed (l : list pt) : list pt := match l with [] => [] | x :: m => x :: m ++ [x] end.
Definition ring (l : list pt) : list (pt * pt) := pairs (closed l).
Definition rot (l : list pt) : list pt := match l with [] => [] | x :: m => m ++ [x] end.
Lemma pairs_snoc l y z : pairs (l ++ [y; z]) = pairs (l ++ [y]) ++ [(y, z)].
Proof.
  induction l as [|a l IH]; [reflexivity|]. destruct l as [|b l]; [reflexivity|].
  change (pairs ((a :: b :: l) ++ [y; z])) with ((a, b) :: pairs ((b :: l) ++ [y; z])). rewrite IH. reflexivity.
Qed.
Lemma ring_rot l e r : ring l = e :: r -> ring (rot l) = r ++ [e].
Proof.
  unfold ring. destruct l as [|a [|v m]]; [discriminate| |].
  - cbn. intros [= <- <-]. reflexivity.
  - cbn [closed rot app]. change (pairs (a :: v :: m ++ [a])) with ((a, v) :: pairs (v :: m ++ [a])). intros [= <- <-].
    cbn [app]. change (v :: (m ++ [a]) ++ [v]) with (((v :: m) ++ [a]) ++ [v]). rewrite <- app_assoc. cbn [app]. exact (pairs_snoc (v :: m) a v).
Qed.
Definition at_ (l : list pt) (i : nat) (s : R) : pt := along (nth i l (0, 0)) (nth (S i) l (0, 0)) s.
Lemma closed_length l : l <> [] -> length (closed l) = S (length l).
Proof. destruct l; [congruence|]. intros _. cbn [closed length]. rewrite app_length. cbn. lia. Qed.
Lemma nth_closed l i : (i < length l)%nat -> nth i (closed l) (0, 0) = nth i l (0, 0).
Proof. destruct l as [|x m]; [cbn; lia|]. cbn [closed]. intros H. change (x :: m ++ [x]) with ((x :: m) ++ [x]). now rewrite app_nth1. Qed.
Lemma nth_closed_last l : l <> [] -> nth (length l) (closed l) (0, 0) = nth 0 l (0, 0).
Proof. destruct l as [|x m]; [congruence|]. intros _. cbn [closed]. change (x :: m ++ [x]) with ((x :: m) ++ [x]). rewrite app_nth2 by lia. rewrite Nat.sub_diag. reflexivity. Qed.
Lemma rot_length l : length (rot l) = length l.
Proof. destruct l; [reflexivity|]. cbn. rewrite app_length. cbn. lia. Qed.
Lemma nth_rot l i : (i < length l)%nat -> nth i (rot l) (0, 0) = nth (S i) (closed l) (0, 0).
Proof. destruct l as [|x m]; [cbn; lia|]. intros _. reflexivity. Qed.
Lemma at_rot l i s : (i < length l)%nat -> at_ (closed (rot l)) i s = if Nat.eqb (S i) (length l) then at_ (closed l) 0 s else at_ (closed l) (S i) s.
Proof.
  intros H. unfold at_. assert (l <> []) as N by (intros ->; cbn in H; lia).
  rewrite (nth_closed (rot l)) by (rewrite rot_length; assumption). rewrite nth_rot by assumption.
  destruct (Nat.eqb_spec (S i) (length l)) as [E|E].
  - rewrite E, (nth_closed_last l) by assumption. rewrite (nth_closed l 0) by lia.
    rewrite <- (rot_length l) at 1. rewrite nth_closed_last by (intros Q; apply N; apply length_zero_iff_nil; rewrite <- rot_length, Q; reflexivity).
    rewrite nth_rot by lia. reflexivity.
  - rewrite (nth_closed (rot l)) by (rewrite rot_length; lia). rewrite nth_rot by lia. reflexivity.
Qed.
Lemma once_rot l : once (closed l) -> once (closed (rot l)).
Proof.
  intros O i j s t Hi Hj Hs Ht E. fold (at_ (closed (rot l)) i s) in E. fold (at_ (closed (rot l)) j t) in E.
  assert (l <> []) as N by (intros ->; cbn in Hi; lia).
  assert (rot l <> []) as N' by (intros Q; apply N; apply length_zero_iff_nil; rewrite <- rot_length, Q; reflexivity).
  rewrite closed_length in Hi, Hj by assumption. rewrite rot_length in Hi, Hj.
  rewrite !at_rot in E by lia. unfold at_ in E.
  assert (length (closed l) = S (length l)) as L by now apply closed_length.
  destruct (Nat.eqb_spec (S i) (length l)) as [Ei|Ei], (Nat.eqb_spec (S j) (length l)) as [Ej|Ej];
    (apply O in E; [destruct E as (E1 & E2); split; [lia|assumption]|lia|lia|assumption|assumption]).
Qed.
Lemma in_pairs L e : In e (pairs L) -> exists j, (S j < length L)%nat /\ e = (nth j L (0, 0), nth (S j) L (0, 0)).
Proof.
  induction L as [|a [|b L] IH]; [easy..|]. change (pairs (a :: b :: L)) with ((a, b) :: pairs (b :: L)). intros [<-|H].
  - exists 0%nat. split; [cbn; lia|reflexivity].
  - destruct (IH H) as (j & Hj & E). exists (S j). split; [cbn in *; lia|exact E].
Qed.
Lemma along_0 a b : along a b 0 = a.
Proof. destruct a. unfold along. cbn. f_equal; ring. Qed.
Lemma along_1 a b : along a b 1 = b.
Proof. destruct b. unfold along. cbn. f_equal; ring. Qed.
Lemma along_along a v t s : along (along a v t) v s = along a v (t + s * (1 - t)).
Proof. unfold along. cbn [fst snd]. f_equal; ring. Qed.
Lemma along_along' v b t s : along v (along v b t) s = along v b (s * t).
Proof. unfold along. cbn [fst snd]. f_equal; ring. Qed.
(** Any point of a step of index 2 or more. *)
Lemma far_step a v b m e tau i s : once (closed (a :: v :: b :: m)) -> In e (pairs (b :: m ++ [a])) -> 0 <= tau <= 1 ->
  at_ (closed (a :: v :: b :: m)) i s = along (fst e) (snd e) tau -> (i < 2)%nat -> 0 <= s < 1 -> i = 0%nat /\ s = 0.
Proof.
  intros O He Htau E Hi Hs. destruct (in_pairs _ _ He) as (j & Hj & ->). cbn [fst snd] in E.
  set (C := closed (a :: v :: b :: m)) in *. assert (C = a :: v :: b :: m ++ [a]) as EC by reflexivity.
  assert (length C = S (S (length (b :: m ++ [a])))) as LC by reflexivity.
  assert (forall k, nth k (b :: m ++ [a]) (0, 0) = nth (S (S k)) C (0, 0)) as EN by reflexivity.
  rewrite !EN in E. destruct (Rlt_dec tau 1) as [T|T].
  - unfold at_ in E. apply O in E; [destruct E; lia || (split; assumption)|lia|lia|lra|lra].
  - assert (tau = 1) by lra. subst tau. rewrite along_1 in E. unfold at_ in E.
    destruct (Nat.eq_dec (S (S (S j))) (length C - 1)) as [Q|Q].
    + rewrite Q in E. assert (nth (length C - 1) C (0, 0) = nth 0 C (0, 0)) as Z.
      { rewrite EC. change (a :: v :: b :: m ++ [a]) with ((a :: v :: b :: m) ++ [a]). rewrite app_length. rewrite app_nth2 by (cbn; lia).
        replace (length (a :: v :: b :: m) + length [a] - 1 - length (a :: v :: b :: m))%nat with 0%nat by (cbn; lia). reflexivity. }
      rewrite Z in E. rewrite <- (along_0 (nth 0 C (0, 0)) (nth 1 C (0, 0))) in E. apply O in E; [destruct E; lia || (split; assumption)|lia|lia|lra|lra].
    + rewrite <- (along_0 (nth (S (S (S j))) C (0, 0)) (nth (S (S (S (S j)))) C (0, 0))) in E. apply O in E; [destruct E; lia || (split; assumption)|lia|lia|lra|lra].
Qed.
Lemma apart_in a v b m e t : once (closed (a :: v :: b :: m)) -> In e (pairs (b :: m ++ [a])) -> 0 < t < 1 ->
  apart (along a v t) v (fst e) (snd e).
Proof.
  intros O He Ht s tau Hs Htau E. rewrite along_along in E. destruct (Rlt_dec s 1) as [H|H].
  - assert (0 < t + s * (1 - t) < 1) by nra.
    destruct (far_step a v b m e tau 0 (t + s * (1 - t)) O He Htau E) as (_ & Z); [lia|lra|]. lra.
  - assert (s = 1) by lra. subst s. replace (t + 1 * (1 - t)) with 1 in E by ring. rewrite along_1, <- (along_0 v b) in E.
    destruct (far_step a v b m e tau 1 0 O He Htau E) as (Z & _); [lia|lra|]. lia.
Qed.
Lemma apart_out a v b m e t : once (closed (a :: v :: b :: m)) -> In e (pairs (b :: m ++ [a])) -> 0 < t < 1 ->
  apart v (along v b t) (fst e) (snd e).
Proof.
  intros O He Ht s tau Hs Htau E. rewrite along_along' in E. assert (0 <= s * t < 1) by nra.
  destruct (far_step a v b m e tau 1 (s * t) O He Htau E) as (Z & _); [lia|lra|]. lia.
Qed.
Lemma once_no_fold a v b m : once (closed (a :: v :: b :: m)) -> no_fold a v b.
Proof.
  intros O D.
  assert (forall k, 0 < k -> fst b - fst v = k * (fst a - fst v) -> snd b - snd v = k * (snd a - snd v) -> False) as F.
  { intros k Hk Ex Ey. set (t := / (2 * (1 + k))). assert (0 < t) as T0 by (apply Rinv_0_lt_compat; lra).
    assert (t * (2 * (1 + k)) = 1) as T1 by (unfold t; field; lra).
    destruct (O 0%nat 1%nat (1 - t * k) t) as (Z & _); try lia.
    - cbn. rewrite app_length. cbn. lia. - cbn. rewrite app_length. cbn. lia. - nra. - nra.
    - cbn [nth closed app]. unfold along. f_equal; nra. }
  assert (a <> v) as Nav.
  { intros ->. destruct (O 0%nat 0%nat 0 (1 / 2)) as (_ & Z); try lra; try (cbn; rewrite app_length; cbn; lia).
    cbn [nth closed app]. unfold along. f_equal; ring. }
  assert (v <> b) as Nvb.
  { intros ->. destruct (O 1%nat 1%nat 0 (1 / 2)) as (_ & Z); try lra; try (cbn; rewrite app_length; cbn; lia).
    cbn [nth closed app]. unfold along. f_equal; ring. }
  unfold dt in D.
  destruct (Req_dec (snd a) (snd v)) as [Ea|Ea].
  - rewrite Ea in D. assert ((fst v - fst a) * (snd b - snd v) = 0) as D' by lra.
    assert (fst a <> fst v) as Nx by (intros Q; apply Nav; apply injective_projections; assumption).
    assert (snd b = snd v) as Eb by (apply Rmult_integral in D'; lra).
    assert (fst b <> fst v) as Nb by (intros Q; apply Nvb; apply injective_projections; lra).
    right. right. split; [assumption|]. split; [lra|].
    destruct (Rtotal_order ((fst b - fst v) * (fst a - fst v)) 0) as [P|[P|P]].
    + destruct (Rlt_dec (fst a) (fst v)); [left|right]; nra.
    + apply Rmult_integral in P. lra.
    + exfalso. apply (F ((fst b - fst v) / (fst a - fst v))).
      * replace ((fst b - fst v) / (fst a - fst v)) with ((fst b - fst v) * (fst a - fst v) * (/ (fst a - fst v) * / (fst a - fst v))) by (field; lra).
        apply Rmult_lt_0_compat; [assumption|]. assert (/ (fst a - fst v) <> 0) by (apply Rinv_neq_0_compat; lra). nra.
      * field. lra.
      * rewrite Ea, Eb. ring.
  - destruct (Rtotal_order ((snd b - snd v) * (snd a - snd v)) 0) as [P|[P|P]].
    + destruct (Rlt_dec (snd a) (snd v)); [left|right; left]; nra.
    + exfalso. assert (snd b = snd v) as Eb by (apply Rmult_integral in P; lra).
      apply Nvb. apply injective_projections; [|lra]. rewrite Eb in D. assert ((snd v - snd a) * (fst v - fst b) = 0) as D' by lra. apply Rmult_integral in D'. lra.
    + exfalso. apply (F ((snd b - snd v) / (snd a - snd v))).
      * replace ((snd b - snd v) / (snd a - snd v)) with ((snd b - snd v) * (snd a - snd v) * (/ (snd a - snd v) * / (snd a - snd v))) by (field; lra).
        apply Rmult_lt_0_compat; [assumption|]. assert (/ (snd a - snd v) <> 0) by (apply Rinv_neq_0_compat; lra). nra.
      * apply (Rmult_eq_reg_r (snd a - snd v)); [|lra]. replace ((snd b - snd v) / (snd a - snd v) * (fst a - fst v) * (snd a - snd v)) with ((snd b - snd v) * (fst a - fst v)) by (field; lra). lra.
      * field. lra.
Qed.

(** The winding number on the left of the first step. *)
Definition wleft (es : list (pt * pt)) (t : R) : Z :=
  match es with e :: r => (wind r (along (fst e) (snd e) t) + hs (fst e) (snd e))%Z | [] => 0%Z end.
Lemma st_on q r p : dt q r p = 0 -> st q r p = 0%Z.
Proof.
  intros H. unfold st, st_up. rewrite (dt_flip q r), H. destruct (Rlt_dec (- 0) 0); [lra|]. destruct (Rlt_dec 0 0); [lra|].
  repeat match goal with |- context [if ?b then _ else _] => destruct b end; reflexivity.
Qed.
Lemma wleft_step l t t' : (3 <= length l)%nat -> once (closed l) -> 0 < t < 1 -> 0 < t' < 1 -> wleft (ring l) t = wleft (ring (rot l)) t'.
Proof.
  intros L O Ht Ht'. destruct l as [|a [|v [|b m]]]; cbn in L; try lia.
  assert (ring (a :: v :: b :: m) = (a, v) :: (v, b) :: pairs (b :: m ++ [a])) as E by reflexivity.
  rewrite (ring_rot _ _ _ E). rewrite E. cbn [app wleft fst snd wind]. rewrite wind_app. cbn [wind fst snd].
  pose proof (around a v b t t' Ht Ht' (once_no_fold _ _ _ _ O)) as A.
  pose proof (wind_flux (along a v t) v b m a (fun e He => apart_in a v b m e t O He Ht)) as F1.
  pose proof (wind_flux v (along v b t') b m a (fun e He => apart_out a v b m e t' O He Ht')) as F2.
  rewrite (st_on (along a v t) v a) in F1 by (unfold dt, along; cbn [fst snd]; ring).
  rewrite (st_on v (along v b t') b) in F2 by (unfold dt, along; cbn [fst snd]; ring).
  lia.
Qed.
Lemma iter_once k l : once (closed l) -> once (closed (Nat.iter k rot l)).
Proof. intros H. induction k as [|k IH]; [exact H|]. cbn. now apply once_rot. Qed.
Lemma iter_length k l : length (Nat.iter k rot l) = length l.
Proof. induction k as [|k IH]; [reflexivity|]. cbn. now rewrite rot_length. Qed.
Lemma wleft_iter k l t t' : (3 <= length l)%nat -> once (closed l) -> 0 < t < 1 -> 0 < t' < 1 -> wleft (ring l) t = wleft (ring (Nat.iter k rot l)) t'.
Proof.
  intros L O Ht Ht'. revert t' Ht'. induction k as [|k IH]; intros t' Ht'.
  - cbn. rewrite (wleft_step l t t); try assumption. symmetry. now apply wleft_step.
  - rewrite (IH _ Ht). apply wleft_step; try assumption; [pose proof (iter_length k l); lia|now apply iter_once].
Qed.
Lemma iter_r k l : Nat.iter (S k) rot l = Nat.iter k rot (rot l).
Proof. induction k as [|k IH]; [reflexivity|]. cbn in *. now rewrite IH. Qed.
Lemma ring_iter_in l e : In e (ring l) -> exists k r, ring (Nat.iter k rot l) = e :: r /\ Permutation (ring l) (e :: r).
Proof.
  assert (forall p l r, ring l = p ++ e :: r -> exists k, ring (Nat.iter k rot l) = e :: r ++ p) as K.
  { clear l. induction p as [|x p IH]; intros l r E.
    - exists 0%nat. cbn. now rewrite app_nil_r.
    - destruct (IH (rot l) (r ++ [x])) as (k & Ek); [rewrite (ring_rot _ _ _ E), <- app_assoc; reflexivity|].
      exists (S k). rewrite iter_r, Ek, <- app_assoc. reflexivity. }
  intros H. destruct (in_split _ _ H) as (p & r & E). destruct (K _ _ _ E) as (k & Ek).
  exists k, (r ++ p). split; [exact Ek|]. rewrite E. rewrite <- Permutation_middle. constructor. apply Permutation_app_comm.
Qed.
(** The same winding number left of every step. *)
Lemma wleft_all l : (3 <= length l)%nat -> once (closed l) -> forall e r t, Permutation (ring l) (e :: r) -> 0 < t < 1 ->
  wleft (e :: r) t = wleft (ring l) (1 / 2).
Proof.
  intros L O e r t P Ht. destruct (ring_iter_in l e) as (k & r' & Ek & P').
  { apply (Permutation_in _ (Permutation_sym P)). now left. }
  rewrite (wleft_iter k l (1 / 2) t) by (assumption || lra). rewrite Ek. cbn [wleft]. f_equal.
  apply wind_perm. apply Permutation_cons_inv with e. now rewrite <- P, <- P'.
Qed.
(** At the top. *)
Lemma cr_top c d v : snd c <= snd v -> snd d <= snd v -> cr c d v = 0%Z.
Proof. intros H1 H2. unfold cr. destruct (Rle_dec (snd c) (snd v)); [|lra]. destruct (Rlt_dec (snd v) (snd d)); [lra|reflexivity]. Qed.
Lemma wind_top es v : (forall e, In e es -> snd (fst e) <= snd v /\ snd (snd e) <= snd v) -> wind es v = 0%Z.
Proof.
  induction es as [|e es IH]; intros H; [reflexivity|]. cbn [wind]. rewrite IH by (intros; apply H; now right).
  rewrite cr_top; [reflexivity|apply H; now left..].
Qed.
Lemma wleft_top a v b m t : once (closed (a :: v :: b :: m)) -> 0 < t < 1 -> snd a < snd v -> (forall p, In p (a :: v :: b :: m) -> snd p <= snd v) ->
  dt a v b <> 0 /\ wleft (ring (a :: v :: b :: m)) t = if Rlt_dec 0 (dt a v b) then 1%Z else 0%Z.
Proof.
  intros O Ht Ha Top. pose proof (once_no_fold _ _ _ _ O) as N.
  assert (snd b <= snd v) as Hb by (apply Top; cbn; auto).
  assert (dt a v b <> 0) as Nz by (intros Z; destruct (N Z) as [X|[X|X]]; lra). split; [exact Nz|].
  change (ring (a :: v :: b :: m)) with ((a, v) :: (v, b) :: pairs (b :: m ++ [a])). cbn [wleft wind fst snd].
  pose proof (wind_flux (along a v t) v b m a (fun e He => apart_in a v b m e t O He Ht)) as F1.
  rewrite (st_on (along a v t) v a) in F1 by (unfold dt, along; cbn [fst snd]; ring).
  rewrite (wind_top _ v) in F1.
  2: { intros e He. destruct (in_pairs _ _ He) as (j & Hj & ->). cbn [fst snd].
    assert (forall k, (k < length (b :: m ++ [a]))%nat -> snd (nth k (b :: m ++ [a]) (0, 0)) <= snd v) as K.
    { intros k Hk. apply Top. assert (In (nth k (b :: m ++ [a]) (0, 0)) (b :: m ++ [a])) as I by now apply nth_In.
      destruct I as [I|I]; [rewrite <- I; cbn; auto|]. apply in_app_or in I. destruct I as [I|[I|[]]]; [cbn; auto|rewrite <- I; cbn; auto]. }
    split; apply K; lia. }
  assert (wind (pairs (b :: m ++ [a])) (along a v t) = - st (along a v t) v b)%Z as -> by lia. clear F1.
  set (q := along a v t).
  assert (dt v b q = (1 - t) * dt a v b) as E1 by (unfold dt, q, along; cbn [fst snd]; ring).
  assert (dt q v b = (1 - t) * dt a v b) as E2 by (unfold dt, q, along; cbn [fst snd]; ring).
  destruct (sign_scale (1 - t) (dt a v b) ltac:(lra)) as ((S1 & S2) & (S3 & S4)).
  destruct (between (snd a) (snd v) t Ht) as (Q1 & _). specialize (Q1 Ha). change (snd a + t * (snd v - snd a)) with (snd q) in Q1.
  unfold st. rewrite (st_up_0 v q) by lra. unfold st_up, cr, hs. rewrite E1, E2.
  destruct (Rtotal_order (dt a v b) 0) as [HD|[HD|HD]]; [|congruence|];
  try specialize (S2 HD); try specialize (S4 HD);
  repeat match goal with |- context [Rlt_dec ?x ?y] => destruct (Rlt_dec x y); try (exfalso; lra) | |- context [Rle_dec ?x ?y] => destruct (Rle_dec x y); try (exfalso; lra) end; reflexivity.
Qed.

(** ** Level lines *)
Notation edge := (pt * pt)%type.
Definition sg (e : edge) (y : R) : Z :=
  if Rlt_dec (snd (fst e)) y then if Rlt_dec y (snd (snd e)) then 1%Z else 0%Z
  else if Rlt_dec y (snd (fst e)) then if Rlt_dec (snd (snd e)) y then (-1)%Z else 0%Z else 0%Z.
Definition xe (e : edge) (y : R) : R := ev (fst e) (snd e) y.
Lemma sg_values e y : sg e y = 1%Z \/ sg e y = 0%Z \/ sg e y = (-1)%Z.
Proof. unfold sg. repeat match goal with |- context [if ?b then _ else _] => destruct b end; auto. Qed.
Lemma cr_at e x y : snd (fst e) <> y -> snd (snd e) <> y -> cr (fst e) (snd e) (x, y) = if Rlt_dec x (xe e y) then sg e y else 0%Z.
Proof.
  destruct e as (c, d). cbn [fst snd]. intros Hc Hd. unfold cr, sg, xe. cbn [fst snd].
  destruct (Rtotal_order (snd c) (snd d)) as [H|[H|H]].
  - destruct (dt_up c d (x, y) H) as ((U1 & U2) & _). cbn [fst snd] in U1, U2.
    repeat match goal with |- context [Rlt_dec ?x ?y] => destruct (Rlt_dec x y); try (exfalso; lra) | |- context [Rle_dec ?x ?y] => destruct (Rle_dec x y); try (exfalso; lra) end; reflexivity.
  - repeat match goal with |- context [Rlt_dec ?x ?y] => destruct (Rlt_dec x y); try (exfalso; lra) | |- context [Rle_dec ?x ?y] => destruct (Rle_dec x y); try (exfalso; lra) end; reflexivity.
  - destruct (dt_up d c (x, y) H) as ((U1 & U2) & _). cbn [fst snd] in U1, U2. rewrite (dt_flip c d) in U1, U2. rewrite (ev_swap c d) in U1, U2 by lra.
    repeat match goal with |- context [Rlt_dec ?x ?y] => destruct (Rlt_dec x y); try (exfalso; lra) | |- context [Rle_dec ?x ?y] => destruct (Rle_dec x y); try (exfalso; lra) end; reflexivity.
Qed.
Lemma crossing e y : sg e y <> 0%Z -> exists t, 0 < t < 1 /\ along (fst e) (snd e) t = (xe e y, y) /\ hs (fst e) (snd e) = if (sg e y =? 1)%Z then 1%Z else 0%Z.
Proof.
  destruct e as (c, d). unfold sg, xe, hs. cbn [fst snd]. intros H.
  assert (snd c < y < snd d \/ snd d < y < snd c) as C.
  { destruct (Rlt_dec (snd c) y), (Rlt_dec y (snd d)), (Rlt_dec (snd d) y), (Rlt_dec y (snd c)); try congruence; lra. }
  exists ((y - snd c) / (snd d - snd c)). destruct (ev_along c d y) as (E1 & E2); [lra|]. repeat split.
  - destruct C; [apply Rdiv_lt_0_compat; lra|]. replace ((y - snd c) / (snd d - snd c)) with ((snd c - y) / (snd c - snd d)) by (field; lra). apply Rdiv_lt_0_compat; lra.
  - destruct C.
    + apply (Rmult_lt_reg_r (snd d - snd c)); [lra|]. unfold Rdiv. rewrite Rmult_assoc, Rinv_l; lra.
    + replace ((y - snd c) / (snd d - snd c)) with ((snd c - y) / (snd c - snd d)) by (field; lra).
      apply (Rmult_lt_reg_r (snd c - snd d)); [lra|]. unfold Rdiv. rewrite Rmult_assoc, Rinv_l; lra.
  - apply injective_projections; cbn [fst snd]; [symmetry; exact E1|symmetry; exact E2].
  - destruct C; repeat match goal with |- context [Rlt_dec ?x ?y] => destruct (Rlt_dec x y); try (exfalso; lra) end; reflexivity.
Qed.

Lemma ring_ends l e : In e (ring l) -> In (fst e) l /\ In (snd e) l.
Proof.
  unfold ring. intros H. destruct (in_pairs _ _ H) as (j & Hj & ->). cbn [fst snd].
  assert (forall k, (k < length (closed l))%nat -> In (nth k (closed l) (0, 0)) l) as K.
  { intros k Hk. assert (In (nth k (closed l) (0, 0)) (closed l)) as I by now apply nth_In.
    destruct l as [|x m]; [cbn in *; lia|]. cbn [closed] in *. destruct I as [I|I]; [rewrite <- I; now left|].
    apply in_app_or in I. destruct I as [I|[I|[]]]; [now right|rewrite <- I; now left]. }
  split; apply K; lia.
Qed.
Definition off (y : R) (e : edge) : Prop := snd (fst e) <> y /\ snd (snd e) <> y.
Definition total_sg (es : list edge) (y : R) : Z := fold_right (fun e z => (sg e y + z)%Z) 0%Z es.
Definition total_x (es : list edge) (y : R) : R := fold_right (fun e z => IZR (sg e y) * xe e y + z) 0 es.
Lemma wind_right es x y : Forall (off y) es -> (forall e, In e es -> x < xe e y) -> wind es (x, y) = total_sg es y.
Proof.
  induction es as [|e es IH]; intros F H; [reflexivity|]. inversion F as [|? ? Fe F']; subst. cbn [wind total_sg fold_right].
  rewrite cr_at by apply Fe. destruct (Rlt_dec x (xe e y)) as [|N]; [|exfalso; apply N, H; now left]. rewrite IH; [reflexivity|assumption|intros; apply H; now right].
Qed.
Lemma wind_zero es x y : Forall (off y) es -> (forall e, In e es -> xe e y <= x \/ sg e y = 0%Z) -> wind es (x, y) = 0%Z.
Proof.
  induction es as [|e es IH]; intros F H; [reflexivity|]. inversion F as [|? ? Fe F']; subst. cbn [wind].
  rewrite cr_at by apply Fe. rewrite IH; [|assumption|intros; apply H; now right].
  destruct (H e (or_introl eq_refl)) as [Q|Q]; destruct (Rlt_dec x (xe e y)); lra || lia.
Qed.
(** Two steps do not meet on a level line. *)
Lemma xe_distinct l e e' r y : once (closed l) -> Permutation (ring l) (e :: r) -> In e' r -> sg e y <> 0%Z -> sg e' y <> 0%Z -> xe e y <> xe e' y.
Proof.
  intros O P I Se Se' X. destruct (ring_iter_in l e) as (k & r' & Ek & P').
  { apply (Permutation_in _ (Permutation_sym P)). now left. }
  assert (In e' r') as I'.
  { apply (Permutation_in _ (Permutation_cons_inv (Permutation_trans (Permutation_sym P) P')) I). }
  pose proof (iter_once k l O) as O'. set (C := closed (Nat.iter k rot l)) in *.
  unfold ring in Ek. fold C in Ek. destruct C as [|x [|z C]]; [discriminate..|].
  change (pairs (x :: z :: C)) with ((x, z) :: pairs (z :: C)) in Ek. injection Ek as <- <-.
  destruct (in_pairs (z :: C) _ I') as (j & Hj & E').
  destruct (crossing _ _ Se) as (t & Ht & Et & _), (crossing _ _ Se') as (t' & Ht' & Et' & _).
  rewrite <- X, <- Et, E' in Et'. cbn [fst snd] in Et'.
  destruct (O' 0%nat (S j) t t') as (Z & _); try lra; try lia; [cbn in *; lia..|]. cbn [nth] in *. symmetry. exact Et'.
Qed.
Definition crosses (y : R) (e : edge) : bool := negb (sg e y =? 0)%Z.
Lemma split_filter {A} (f : A -> bool) l : Permutation l (filter f l ++ filter (fun x => negb (f x)) l).
Proof.
  induction l as [|x l IH]; [constructor|]. cbn. destruct (f x); cbn.
  - now constructor.
  - rewrite <- Permutation_middle. now constructor.
Qed.
Lemma sort_by (f : edge -> R) es : exists S, Permutation es S /\ forall S1 e S2, S = S1 ++ e :: S2 -> forall e', In e' S1 -> f e <= f e'.
Proof.
  induction es as [|x es (S & P & H)]; [exists []; split; [constructor|]; intros [|] ? ?; discriminate|].
  assert (forall S, (forall S1 e S2, S = S1 ++ e :: S2 -> forall e', In e' S1 -> f e <= f e') ->
    exists S', Permutation (x :: S) S' /\ forall S1 e S2, S' = S1 ++ e :: S2 -> forall e', In e' S1 -> f e <= f e') as K.
  { clear. induction S as [|z S IH]; intros H.
    - exists [x]. split; [constructor; constructor|]. intros [|a [|b S1]] e S2 E; [intros ? []|discriminate..].
    - destruct (Rle_dec (f z) (f x)) as [L|L].
      + exists (x :: z :: S). split; [constructor; reflexivity|]. intros [|a S1] e S2 E e' I; [destruct I|].
        injection E as <- E. destruct I as [<-|I]; [|now apply (H _ _ _ E)].
        destruct S1 as [|b S1]; [injection E as <- <-; exact L|]. injection E as <- E. subst S.
        apply Rle_trans with (f z); [|exact L]. apply (H (z :: S1) e S2); [reflexivity|now left].
      + destruct IH as (S' & P' & H').
        { intros S1 e S2 E e' I. apply (H (z :: S1) e S2); [now rewrite E|now right]. }
        exists (z :: S'). split; [rewrite perm_swap; now constructor|].
        intros [|a S1] e S2 E e' I; [destruct I|]. injection E as <- E. destruct I as [<-|I]; [|now apply (H' _ _ _ E)].
        assert (In e (x :: S)) as Ie by (apply (Permutation_in _ (Permutation_sym P')); rewrite E; apply in_or_app; right; now left).
        destruct Ie as [<-|Ie]; [lra|]. destruct (in_split _ _ Ie) as (T1 & T2 & ET). apply (H (z :: T1) e T2); [now rewrite ET|now left]. }
  destruct (K S H) as (S' & P' & H'). exists S'. split; [|exact H']. now rewrite P.
Qed.
Lemma total_x_perm a b y : Permutation a b -> total_x a y = total_x b y.
Proof. induction 1; cbn [total_x fold_right] in *; unfold total_x in *; lra. Qed.
Lemma total_sg_perm a b y : Permutation a b -> total_sg a y = total_sg b y.
Proof. induction 1; cbn [total_sg fold_right] in *; unfold total_sg in *; lia. Qed.
Lemma total_x_cons e a y : total_x (e :: a) y = IZR (sg e y) * xe e y + total_x a y.
Proof. reflexivity. Qed.
Lemma total_sg_cons e a y : total_sg (e :: a) y = (sg e y + total_sg a y)%Z.
Proof. reflexivity. Qed.
Lemma total_app a b y : total_x (a ++ b) y = total_x a y + total_x b y /\ total_sg (a ++ b) y = (total_sg a y + total_sg b y)%Z.
Proof.
  induction a as [|e a (IH1 & IH2)]; cbn [app].
  - split; [change (total_x [] y) with 0; ring|change (total_sg [] y) with 0%Z; lia].
  - rewrite !total_x_cons, !total_sg_cons, IH1, IH2. split; [ring|lia].
Qed.
Lemma total_none es y : (forall e, In e es -> sg e y = 0%Z) -> total_x es y = 0 /\ total_sg es y = 0%Z.
Proof.
  induction es as [|e es IH]; intros H; [now split|]. destruct IH as (I1 & I2); [intros; apply H; now right|].
  unfold total_x, total_sg in *. cbn [fold_right]. rewrite I1, I2, (H e (or_introl eq_refl)). split; [ring|lia].
Qed.
(** A closed chain goes up as often as it goes down. *)
Lemma total_sg_chain a l z y : (forall p, In p (a :: l ++ [z]) -> snd p <> y) ->
  total_sg (pairs (a :: l ++ [z])) y = ((if Rlt_dec y (snd z) then 1 else 0) - (if Rlt_dec y (snd a) then 1 else 0))%Z.
Proof.
  revert a. induction l as [|b l IH]; intros a H.
  - cbn [app pairs total_sg fold_right]. unfold sg. cbn [fst snd].
    pose proof (H a (or_introl eq_refl)). pose proof (H z (or_intror (or_introl eq_refl))).
    repeat match goal with |- context [Rlt_dec ?x ?y] => destruct (Rlt_dec x y); try (exfalso; lra) end; reflexivity.
  - cbn [app]. change (pairs (a :: b :: l ++ [z])) with ((a, b) :: pairs (b :: l ++ [z])).
    unfold total_sg in *. cbn [fold_right]. rewrite (IH b) by (intros p I; apply H; now right).
    unfold sg. cbn [fst snd]. pose proof (H a (or_introl eq_refl)). pose proof (H b (or_intror (or_introl eq_refl))).
    destruct (Rlt_dec y (snd z));
    repeat match goal with |- context [Rlt_dec ?x ?y] => destruct (Rlt_dec x y); try (exfalso; lra) end; reflexivity.
Qed.
(** Alternating crossings, from the right. *)
Lemma alternate y L : (L = 1 \/ L = 0)%Z -> forall n S, (length S <= n)%nat ->
  (forall S1 e S2, S = S1 ++ e :: S2 -> (forall e', In e' S1 -> xe e y < xe e' y) /\ sg e y <> 0%Z /\
     (total_sg S1 y + (if (sg e y =? 1)%Z then 1 else 0) = L)%Z) ->
  total_sg S y = 0%Z -> S = [] \/ 0 < IZR (2 * L - 1) * total_x S y.
Proof.
  intros HL. induction n as [|n IH]; intros S Hn H T; [left; destruct S; [reflexivity|cbn in Hn; lia]|].
  destruct S as [|e1 S]; [now left|]. right.
  destruct (H [] e1 S eq_refl) as (_ & N1 & A1). cbn [total_sg fold_right] in A1.
  destruct S as [|e2 S].
  { exfalso. unfold total_sg in T. cbn [fold_right] in T. lia. }
  destruct (H [e1] e2 S eq_refl) as (X & N2 & A2). specialize (X e1 (or_introl eq_refl)). unfold total_sg in A2, T. cbn [fold_right] in A2, T. fold (total_sg S y) in T.
  assert (sg e1 y = 2 * L - 1 /\ sg e2 y = - (2 * L - 1))%Z as (V1 & V2).
  { destruct (sg_values e1 y) as [Q|[Q|Q]], (sg_values e2 y) as [Q'|[Q'|Q']]; rewrite Q, Q' in *; cbn in A1, A2; try lia. }
  assert (S = [] \/ 0 < IZR (2 * L - 1) * total_x S y) as R.
  { apply IH.
    - cbn in Hn. lia.
    - intros S1 e S2 E. destruct (H (e1 :: e2 :: S1) e S2) as (B1 & B2 & B3); [now rewrite E|]. repeat split.
      + intros e' I. apply B1. cbn. auto.
      + exact B2.
      + unfold total_sg in *. cbn [fold_right] in B3. lia.
    - lia. }
  unfold total_x. cbn [fold_right]. fold (total_x S y). rewrite V1, V2.
  assert (0 <= IZR (2 * L - 1) * total_x S y) as R0 by (destruct R as [->|R]; [unfold total_x; cbn [fold_right]; lra|lra]).
  destruct HL as [-> | ->]; cbn in *; lra.
Qed.
Lemma level_sign l y : (3 <= length l)%nat -> once (closed l) -> (forall p, In p l -> snd p <> y) ->
  let L := wleft (ring l) (1 / 2) in (L = 1 \/ L = 0)%Z ->
  0 <= IZR (2 * L - 1) * total_x (ring l) y /\ ((exists e, In e (ring l) /\ sg e y <> 0%Z) -> 0 < IZR (2 * L - 1) * total_x (ring l) y).
Proof.
  intros Len O Off L HL. set (F := filter (crosses y) (ring l)). set (N := filter (fun x => negb (crosses y x)) (ring l)).
  pose proof (split_filter (crosses y) (ring l)) as P0. fold F in P0. fold N in P0.
  destruct (sort_by (fun e => xe e y) F) as (S & PS & Sorted).
  assert (Permutation (ring l) (S ++ N)) as P by (rewrite P0, PS; reflexivity).
  assert (Forall (off y) (ring l)) as FO.
  { apply Forall_forall. intros e I. destruct (ring_ends l e I). split; now apply Off. }
  assert (forall e, In e N -> sg e y = 0%Z) as HN.
  { intros e I. apply filter_In in I. destruct I as (_ & I). unfold crosses in I. destruct (Z.eqb_spec (sg e y) 0); [assumption|discriminate]. }
  assert (forall e, In e S -> sg e y <> 0%Z) as HS.
  { intros e I. apply (Permutation_in _ (Permutation_sym PS)) in I. apply filter_In in I. destruct I as (_ & I). unfold crosses in I. destruct (Z.eqb_spec (sg e y) 0); [discriminate|assumption]. }
  destruct (total_none N y HN) as (N1 & N2).
  assert (total_x (ring l) y = total_x S y) as EX by (rewrite (total_x_perm _ _ y P); destruct (total_app S N y) as (-> & _); lra).
  assert (total_sg (ring l) y = total_sg S y) as ES by (rewrite (total_sg_perm _ _ y P); destruct (total_app S N y) as (_ & ->); lia).
  assert (total_sg (ring l) y = 0%Z) as Z0.
  { unfold ring. destruct l as [|x m]; [reflexivity|]. cbn [closed]. rewrite total_sg_chain; [lia|].
    intros p [<-|I]; [apply Off; now left|]. apply in_app_or in I. destruct I as [I|[<-|[]]]; apply Off; [now right|now left]. }
  destruct (alternate y L HL (length S) S) as [E|E].
  - lia.
  - intros S1 e S2 E. assert (Permutation (ring l) (e :: (S1 ++ S2) ++ N)) as Pe.
    { rewrite P, E. rewrite <- !app_assoc. cbn [app]. now rewrite <- Permutation_middle. }
    assert (sg e y <> 0%Z) as Se by (apply HS; rewrite E; apply in_or_app; right; now left).
    assert (forall e', In e' S1 -> xe e y < xe e' y) as Lt.
    { intros e' I. pose proof (Sorted _ _ _ E e' I) as Le. cbn beta in Le.
      enough (xe e y <> xe e' y) by lra. apply (xe_distinct l e e' ((S1 ++ S2) ++ N) y O Pe); try assumption.
      - apply in_or_app. left. apply in_or_app. now left.
      - apply HS. rewrite E. apply in_or_app. now left. }
    split; [exact Lt|]. split; [exact Se|].
    destruct (crossing e y Se) as (t & Ht & Et & Eh).
    pose proof (wleft_all l Len O e _ t Pe Ht) as W. fold L in W. cbn [wleft] in W. rewrite Et, Eh in W. rewrite <- W. f_equal.
    assert (Forall (off y) (e :: (S1 ++ S2) ++ N)) as FO'.
    { apply Forall_forall. intros z I. apply (Forall_forall (off y) (ring l)); [exact FO|]. now apply (Permutation_in _ (Permutation_sym Pe)). }
    inversion FO' as [|? ? _ FO2]; subst. apply Forall_app in FO2. destruct FO2 as (FO2 & FON). apply Forall_app in FO2. destruct FO2 as (FO1 & FO2).
    rewrite !wind_app. rewrite (wind_right S1) by assumption. rewrite (wind_zero N) by (try assumption; intros; right; now apply HN).
    rewrite (wind_zero S2); [lia|assumption|]. intros e' I. left.
    destruct (in_split _ _ I) as (T1 & T2 & ET). subst S2. apply (Sorted (S1 ++ e :: T1) e' T2); [now rewrite <- app_assoc|]. apply in_or_app. right. now left.
  - lia.
  - subst S. rewrite EX. unfold total_x. cbn [fold_right]. split; [lra|]. intros (e & I & Se). exfalso.
    apply (Permutation_in _ P) in I. cbn in I. apply Se. now apply HN.
  - rewrite EX. split; [lra|intros _; exact E].
Qed.

(** ** The area as a sum over level strips *)
Fixpoint sumN (n : nat) (f : nat -> R) : R := match n with O => 0 | S n => sumN n f + f n end.
Lemma sumN_ext n f g : (forall i, (i < n)%nat -> f i = g i) -> sumN n f = sumN n g.
Proof. induction n as [|n IH]; intros H; [reflexivity|]. cbn [sumN]. rewrite IH by (intros; apply H; lia). rewrite H by lia. reflexivity. Qed.
Lemma sumN_plus n f g : sumN n (fun i => f i + g i) = sumN n f + sumN n g.
Proof. induction n as [|n IH]; cbn [sumN]; [ring|]. rewrite IH. ring. Qed.
Lemma sumN_scale n c f : sumN n (fun i => c * f i) = c * sumN n f.
Proof. induction n as [|n IH]; cbn [sumN]; [ring|]. rewrite IH. ring. Qed.
Lemma sumN_nonneg n f : (forall i, (i < n)%nat -> 0 <= f i) -> 0 <= sumN n f.
Proof. induction n as [|n IH]; intros H; cbn [sumN]; [lra|]. pose proof (IH (fun i Hi => H i (Nat.lt_lt_succ_r _ _ Hi))). pose proof (H n ltac:(lia)). lra. Qed.
Lemma sumN_pos n f k : (forall i, (i < n)%nat -> 0 <= f i) -> (k < n)%nat -> 0 < f k -> 0 < sumN n f.
Proof.
  induction n as [|n IH]; intros H Hk Fk; [lia|]. cbn [sumN]. pose proof (H n ltac:(lia)).
  destruct (Nat.eq_dec k n) as [->|Ne].
  - pose proof (sumN_nonneg n f (fun i Hi => H i (Nat.lt_lt_succ_r _ _ Hi))). lra.
  - pose proof (IH (fun i Hi => H i (Nat.lt_lt_succ_r _ _ Hi)) ltac:(lia) Fk). lra.
Qed.
Definition mid_y (lo : Z) (i : nat) : R := IZR (lo + Z.of_nat i) + / 2.
Lemma mid_lt lo i z : (IZR z < mid_y lo i <-> (z <= lo + Z.of_nat i)%Z) /\ (mid_y lo i < IZR z <-> (lo + Z.of_nat i < z)%Z).
Proof.
  unfold mid_y. split; split; intros H.
  - apply Z.lt_succ_r. apply lt_IZR. unfold Z.succ. rewrite plus_IZR. lra.
  - apply IZR_le in H. lra.
  - apply lt_IZR. lra.
  - apply Zlt_le_succ in H. apply IZR_le in H. unfold Z.succ in H. rewrite plus_IZR in H. lra.
Qed.
Lemma mid_off lo i z : IZR z <> mid_y lo i.
Proof. intros E. destruct (mid_lt lo i z) as ((_ & A) & (_ & B)). destruct (Z.le_gt_cases z (lo + Z.of_nat i)) as [H|H]; [apply A in H|apply B in H]; lra. Qed.
Definition trap (e : edge) : R := (fst (fst e) + fst (snd e)) * (snd (snd e) - snd (fst e)).
Lemma strip_up (a b : Z * Z) lo n : (lo <= snd a)%Z -> (snd a < snd b)%Z ->
  let e := (real_pt a, real_pt b) in
  let T := (lo + Z.of_nat n)%Z in
  let h := IZR (snd b - snd a) in
  sumN n (fun i => 2 * (IZR (sg e (mid_y lo i)) * xe e (mid_y lo i))) =
  if (T <=? snd a)%Z then 0 else if (T <=? snd b)%Z then
    2 * IZR (fst a) * IZR (T - snd a) + (IZR (fst b) - IZR (fst a)) * (IZR (T - snd a) * IZR (T - snd a)) / h
  else (IZR (fst a) + IZR (fst b)) * h.
Proof.
  intros Hlo Hab e. cbv zeta. assert (0 < IZR (snd b - snd a)) as Hh by (apply (IZR_lt 0); lia).
  induction n as [|n IH].
  - cbn [sumN Z.of_nat]. destruct (Z.leb_spec (lo + 0) (snd a)); [reflexivity|lia].
  - cbn [sumN]. rewrite IH. clear IH. set (t := (lo + Z.of_nat n)%Z). replace (lo + Z.of_nat (S n))%Z with (t + 1)%Z by lia.
    assert (sg e (mid_y lo n) = if (snd a <=? t)%Z then if (t <? snd b)%Z then 1%Z else 0%Z else 0%Z) as Es.
    { unfold sg, e, real_pt. cbn [fst snd]. destruct (mid_lt lo n (snd a)) as (A1 & A2), (mid_lt lo n (snd b)) as (B1 & B2). fold t in A1, A2, B1, B2.
      destruct (Z.leb_spec (snd a) t), (Z.ltb_spec t (snd b)), (Rlt_dec (IZR (snd a)) (mid_y lo n)), (Rlt_dec (mid_y lo n) (IZR (snd b))),
        (Rlt_dec (mid_y lo n) (IZR (snd a))), (Rlt_dec (IZR (snd b)) (mid_y lo n)); try reflexivity; exfalso; intuition lia. }
    rewrite Es.
    assert (xe e (mid_y lo n) = IZR (fst a) + (IZR (fst b) - IZR (fst a)) * (IZR (t - snd a) + / 2) / IZR (snd b - snd a)) as Ex.
    { unfold xe, ev, e, real_pt, mid_y. cbn [fst snd]. fold t. rewrite !minus_IZR in *. field. lra. }
    rewrite Ex. clear Es Ex.
    destruct (Z.leb_spec (t + 1) (snd a)), (Z.leb_spec t (snd a)), (Z.leb_spec (snd a) t), (Z.leb_spec (t + 1) (snd b)), (Z.leb_spec t (snd b)), (Z.ltb_spec t (snd b)); try lia.
    all: try lra.
    + assert (t = snd a) by lia. replace (t + 1 - snd a)%Z with 1%Z by lia. replace (t - snd a)%Z with 0%Z by lia. field. lra.
    + replace (t + 1 - snd a)%Z with (t - snd a + 1)%Z by lia. rewrite plus_IZR. field. lra.
    + assert (t = snd b) by lia. replace (t - snd a)%Z with (snd b - snd a)%Z by lia. field. lra.
Qed.
Lemma sg_flip a b y : sg (b, a) y = (- sg (a, b) y)%Z \/ snd a = y \/ snd b = y.
Proof.
  destruct (Req_dec (snd a) y); [auto|]. destruct (Req_dec (snd b) y); [auto|]. left. unfold sg. cbn [fst snd].
  repeat match goal with |- context [Rlt_dec ?x ?y] => destruct (Rlt_dec x y); try (exfalso; lra) end; reflexivity.
Qed.
Lemma strip_edge (a b : Z * Z) lo n : (lo <= snd a <= lo + Z.of_nat n)%Z -> (lo <= snd b <= lo + Z.of_nat n)%Z ->
  let e := (real_pt a, real_pt b) in
  sumN n (fun i => 2 * (IZR (sg e (mid_y lo i)) * xe e (mid_y lo i))) = trap e.
Proof.
  assert (forall a b, (lo <= snd a <= lo + Z.of_nat n)%Z -> (lo <= snd b <= lo + Z.of_nat n)%Z -> (snd a < snd b)%Z ->
    sumN n (fun i => 2 * (IZR (sg (real_pt a, real_pt b) (mid_y lo i)) * xe (real_pt a, real_pt b) (mid_y lo i))) = trap (real_pt a, real_pt b)) as Up.
  { clear. intros a b Ha Hb H. rewrite strip_up by lia. assert (0 < IZR (snd b - snd a)) as Hh by (apply (IZR_lt 0); lia).
    unfold trap, real_pt. cbn [fst snd]. destruct (Z.leb_spec (lo + Z.of_nat n) (snd a)); [lia|]. rewrite <- (minus_IZR (snd b) (snd a)).
    destruct (Z.leb_spec (lo + Z.of_nat n) (snd b)); [|reflexivity]. replace (lo + Z.of_nat n)%Z with (snd b) by lia. field. lra. }
  intros Ha Hb e. destruct (Z.lt_total (snd a) (snd b)) as [H|[H|H]].
  - now apply Up.
  - rewrite (sumN_ext _ _ (fun _ => 0 * 0)).
    + rewrite sumN_scale. unfold trap, e, real_pt. cbn [fst snd]. rewrite H. ring.
    + intros i _. assert (sg e (mid_y lo i) = 0%Z) as ->; [|ring]. unfold sg, e, real_pt. cbn [fst snd]. rewrite H.
      repeat match goal with |- context [Rlt_dec ?x ?y] => destruct (Rlt_dec x y); try (exfalso; lra) end; reflexivity.
  - rewrite (sumN_ext _ _ (fun i => -1 * (2 * (IZR (sg (real_pt b, real_pt a) (mid_y lo i)) * xe (real_pt b, real_pt a) (mid_y lo i))))).
    + rewrite sumN_scale, Up by assumption. unfold trap, e, real_pt. cbn [fst snd]. ring.
    + intros i _. unfold e. destruct (sg_flip (real_pt b) (real_pt a) (mid_y lo i)) as [E|[E|E]].
      * rewrite E, opp_IZR. unfold xe. cbn [fst snd]. rewrite (ev_swap (real_pt b) (real_pt a)); [ring|].
        unfold real_pt. cbn [snd]. intros Q. apply eq_IZR in Q. lia.
      * exfalso. now apply (mid_off lo i (snd b)).
      * exfalso. now apply (mid_off lo i (snd a)).
Qed.
Definition total_trap (es : list edge) : R := fold_right (fun e z => trap e + z) 0 es.
Lemma strips es lo n : (forall e, In e es -> exists a b, e = (real_pt a, real_pt b) /\ (lo <= snd a <= lo + Z.of_nat n)%Z /\ (lo <= snd b <= lo + Z.of_nat n)%Z) ->
  sumN n (fun i => 2 * total_x es (mid_y lo i)) = total_trap es.
Proof.
  induction es as [|e es IH]; intros H.
  - rewrite sumN_scale. rewrite (sumN_ext _ _ (fun _ => 0 * 0)) by (intros; unfold total_x; cbn; ring). rewrite sumN_scale. unfold total_trap. cbn [fold_right]. ring.
  - unfold total_trap. cbn [fold_right]. fold (total_trap es). rewrite <- IH by (intros; apply H; now right).
    destruct (H e (or_introl eq_refl)) as (a & b & -> & Ha & Hb). rewrite <- (strip_edge a b lo n Ha Hb). rewrite <- sumN_plus.
    apply sumN_ext. intros i _. rewrite total_x_cons. ring.
Qed.
Lemma trap_chain (a : Z * Z) l z : total_trap (pairs (map real_pt (a :: l ++ [z]))) = IZR (area2 (a :: l ++ [z]) + fst z * snd z - fst a * snd a).
Proof.
  revert a. induction l as [|b l IH]; intros a.
  - cbn [app map pairs total_trap fold_right area2 steps]. unfold trap, cross, real_pt. cbn [fst snd].
    rewrite minus_IZR, !plus_IZR, minus_IZR, !mult_IZR. ring.
  - cbn [app]. change (pairs (map real_pt (a :: b :: l ++ [z]))) with ((real_pt a, real_pt b) :: pairs (map real_pt (b :: l ++ [z]))).
    change (area2 (a :: b :: l ++ [z])) with (cross a b + area2 (b :: l ++ [z]))%Z.
    unfold total_trap in *. cbn [fold_right]. rewrite IH. unfold trap, cross, real_pt. cbn [fst snd].
    rewrite !minus_IZR, !plus_IZR, minus_IZR, !mult_IZR. ring.
Qed.
Lemma closed_map x m : closed (map real_pt (x :: m)) = map real_pt (x :: m ++ [x]).
Proof. cbn. now rewrite map_app. Qed.
Lemma bounds (l : list (Z * Z)) : exists lo n, forall p, In p l -> (lo <= snd p <= lo + Z.of_nat n)%Z.
Proof.
  induction l as [|x l (lo & n & H)]; [exists 0%Z, 0%nat; intros ? []|].
  exists (Z.min lo (snd x)), (Z.to_nat (Z.max (lo + Z.of_nat n) (snd x) - Z.min lo (snd x))). intros p [<-|I]; [lia|]. specialize (H p I). lia.
Qed.
(** The sign of the area is that of the turn at the top. *)
Lemma area_sign x m k a v b r : once (map real_pt (x :: m ++ [x])) -> (3 <= length (x :: m))%nat ->
  Nat.iter k rot (map real_pt (x :: m)) = a :: v :: b :: r -> snd a < snd v -> (forall p, In p (a :: v :: b :: r) -> snd p <= snd v) ->
  dt a v b <> 0 /\ area2 (x :: m ++ [x]) <> 0%Z /\ ((0 < area2 (x :: m ++ [x]))%Z <-> 0 < dt a v b).
Proof.
  intros O Len Ek Hav Top. rewrite <- closed_map in O. set (l := map real_pt (x :: m)) in *.
  assert (3 <= length l)%nat as Ll by (unfold l; rewrite map_length; exact Len).
  pose proof (iter_once k l O) as Ok. rewrite Ek in Ok.
  destruct (wleft_top a v b r (1 / 2) Ok ltac:(lra) Hav Top) as (Nz & W). split; [exact Nz|].
  rewrite <- Ek in W. rewrite <- (wleft_iter k l (1 / 2) (1 / 2) Ll O) in W by lra.
  set (L := wleft (ring l) (1 / 2)) in *.
  assert (L = 1 \/ L = 0)%Z as HL by (rewrite W; destruct (Rlt_dec 0 (dt a v b)); auto).
  destruct (bounds (x :: m)) as (lo & n & B).
  assert (forall i, forall p, In p l -> snd p <> mid_y lo i) as Off.
  { intros i p I. unfold l in I. apply in_map_iff in I. destruct I as (z & <- & _). apply mid_off. }
  assert (total_trap (ring l) = IZR (area2 (x :: m ++ [x]))) as ET.
  { unfold ring, l. rewrite closed_map, trap_chain. f_equal. lia. }
  assert (sumN n (fun i => 2 * total_x (ring l) (mid_y lo i)) = total_trap (ring l)) as ES.
  { apply strips. intros e I. destruct (ring_ends l e I) as (I1 & I2). unfold l in I1, I2. apply in_map_iff in I1, I2.
    destruct I1 as (p & E1 & I1), I2 as (q & E2 & I2). exists p, q. split; [destruct e; cbn [fst snd] in *; congruence|]. split; now apply B. }
  assert (0 < IZR (2 * L - 1) * IZR (area2 (x :: m ++ [x]))) as Pos.
  { rewrite <- ET, <- ES, <- sumN_scale.
    assert (In (a, v) (ring l)) as Iav.
    { assert (forall j, incl (ring (Nat.iter j rot l)) (ring l)) as K.
      { induction j as [|j IH]; [apply incl_refl|]. intros e I. change (Nat.iter (S j) rot l) with (rot (Nat.iter j rot l)) in I. destruct (ring (Nat.iter j rot l)) as [|e0 r0] eqn:E0.
        - exfalso. destruct (Nat.iter j rot l) as [|y0 [|y1 l0]] eqn:E1; [|discriminate E0..]. assert (length (Nat.iter j rot l) = length l) as Q by apply iter_length. rewrite E1 in Q. cbn in Q. lia.
        - rewrite (ring_rot _ _ _ E0) in I. apply IH. apply in_app_or in I. destruct I as [I|[<-|[]]]; [now right|now left]. }
      apply (K k). rewrite Ek. now left. }
    destruct (ring_ends l _ Iav) as (I1 & I2). unfold l in I1, I2. apply in_map_iff in I1, I2. destruct I1 as (p & E1 & I1), I2 as (q & E2 & I2). cbn [fst snd] in E1, E2.
    assert (snd p < snd q)%Z as Hpq by (apply lt_IZR; subst a v; exact Hav).
    pose proof (B p I1). pose proof (B q I2).
    apply (sumN_pos _ _ (Z.to_nat (snd p - lo))).
    - intros i Hi. destruct (level_sign l (mid_y lo i) Ll O (Off i) HL) as (Q & _). fold L in Q. lra.
    - lia.
    - destruct (level_sign l (mid_y lo (Z.to_nat (snd p - lo))) Ll O (Off _) HL) as (_ & Q). fold L in Q.
      enough (0 < IZR (2 * L - 1) * total_x (ring l) (mid_y lo (Z.to_nat (snd p - lo)))) by lra. apply Q. exists (a, v). split; [exact Iav|].
      unfold sg. cbn [fst snd]. subst a v. unfold real_pt. cbn [snd].
      destruct (mid_lt lo (Z.to_nat (snd p - lo)) (snd p)) as ((_ & A1) & _), (mid_lt lo (Z.to_nat (snd p - lo)) (snd q)) as (_ & (_ & A2)).
      destruct (Rlt_dec (IZR (snd p)) (mid_y lo (Z.to_nat (snd p - lo)))) as [|F]; [|exfalso; apply F, A1; lia].
      destruct (Rlt_dec (mid_y lo (Z.to_nat (snd p - lo))) (IZR (snd q))) as [|F]; [discriminate|exfalso; apply F, A2; lia]. }
  rewrite <- mult_IZR in Pos. apply lt_IZR in Pos. split; [intros Z; rewrite Z in Pos; lia|].
  destruct (Rlt_dec 0 (dt a v b)) as [D|D]; rewrite W in Pos; split; intros H; [assumption|lia|exfalso; lia|contradiction].
Qed.
