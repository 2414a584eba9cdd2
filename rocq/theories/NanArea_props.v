(** C86, continued: NaN ordinates in areas. *)
From Coq Require Import ZArith Bool List Lia.
From Flocq Require Import Core IEEE754.BinarySingleNaN.
From Verif Require Import Base F64 F64Facts Coordinate_model CoordSeq_model Measure_model Measure_proofs Orientation_props DDZero_props Nan_props.
Import ListNotations.
Open Scope nat_scope.

Definition at_ (ring : list Coordinate) (k : nat) : Coordinate := nth k ring coord_default.
Definition term (ring : list Coordinate) (i : nat) : f64 :=
  fmul (fsub (cx (at_ ring i)) (cx (at_ ring 0))) (fsub (cy (at_ ring (i - 1))) (cy (at_ ring (i + 1)))).
Lemma area_nan ring i : 3 <= length ring -> 1 <= i -> i + 1 < length ring -> term ring i = fnan -> signed_area_vec ring = Ok fnan.
Proof.
  intros L I1 I2 T. unfold signed_area_vec. destruct (Nat.ltb_spec (length ring) 3) as [X|_]; [lia|].
  rewrite (idx_nth ring 0 coord_default) by lia. cbn [bind]. cbv zeta.
  match goal with |- bind (forN ?n ?l ?s ?b) _ = _ => destruct (forN_ind (fun j (sum : f64) => i < j -> sum = fnan) b n l s) as (r & E & P) end.
  - intros J. lia.
  - intros j s J H. rewrite (idx_nth ring j coord_default), (idx_nth ring (j + 1) coord_default) by lia. cbn [bind].
    unfold usub. destruct (Nat.leb_spec 1 j) as [Q|Q]; [|lia]. cbn [bind]. rewrite (idx_nth ring (j - 1) coord_default) by lia. cbn [bind].
    eexists. split; [reflexivity|]. intros K. destruct (Nat.eq_dec i j) as [<-|Ne].
    + change (fmul _ _) with (term ring i). rewrite T. apply add_nan_r.
    + rewrite H by lia. apply add_nan_l.
  - rewrite E. cbn [bind]. rewrite P by lia. reflexivity.
Qed.
(** The area of a ring of four points or more is NaN as soon as there is a NaN
    among its ordinates, the x of the last point excepted, which is not read. *)
Theorem C86_area : forall ring, 4 <= length ring -> Exists is_NaN (map cx (removelast ring) ++ map cy ring) ->
  signed_area_vec ring = Ok fnan /\ area_vec ring = Ok fnan.
Proof.
  intros ring L H. assert (S : signed_area_vec ring = Ok fnan).
  { apply Exists_exists in H. destruct H as (v & I & V). unfold is_NaN in V. subst v. apply in_app_or in I. destruct I as [I|I]; apply in_map_iff in I; destruct I as (p & E & I).
    - apply (In_nth _ _ coord_default) in I. destruct I as (k & K & N).
      assert (R : ring = removelast ring ++ [last ring coord_default]) by (apply app_removelast_last; intros ->; cbn in L; lia).
      assert (LR : length ring = length (removelast ring) + 1) by (rewrite R at 1; rewrite app_length; reflexivity).
      assert (A : cx (at_ ring k) = fnan) by (unfold at_; rewrite R, app_nth1 by exact K; rewrite N; exact E).
      destruct (Nat.eq_dec k 0) as [->|Ne].
      + apply (area_nan ring 1); try lia. unfold term. rewrite A. nans. reflexivity.
      + apply (area_nan ring k); try lia. unfold term. rewrite A. nans. reflexivity.
    - apply (In_nth _ _ coord_default) in I. destruct I as (k & K & N). assert (A : cy (at_ ring k) = fnan) by (unfold at_; rewrite N; exact E).
      destruct (le_lt_dec 2 k) as [G|G].
      + apply (area_nan ring (k - 1)); try lia. unfold term. replace (k - 1 + 1) with k by lia. rewrite A. nans. reflexivity.
      + apply (area_nan ring (k + 1)); try lia. unfold term. replace (k + 1 - 1) with k by lia. rewrite A. nans. reflexivity. }
  split; [exact S|]. unfold area_vec. rewrite S. reflexivity.
Qed.
(** The same for coordinate sequences. *)
Theorem C86_area_sequence : forall s, 4 <= length (scoords s) -> Exists is_NaN (map cx (removelast (scoords s)) ++ map cy (scoords s)) ->
  signed_area_seq s = Ok fnan /\ area_seq s = Ok fnan.
Proof.
  intros s L H. destruct (C86_area _ L H) as (A & _). unfold area_seq. rewrite signed_area_agree, A. split; reflexivity.
Qed.
(** The x of the last point is not read: any other gives the same area. *)
Theorem C86_area_exception : forall ring p q, cy p = cy q -> signed_area_vec (ring ++ [p]) = signed_area_vec (ring ++ [q]).
Proof.
  intros ring p q E. unfold signed_area_vec. rewrite !app_length. cbn [length]. destruct (Nat.ltb_spec (length ring + 1) 3) as [X|X]; [reflexivity|].
  rewrite !(idx_nth _ 0 coord_default) by (rewrite app_length; cbn; lia). rewrite !(app_nth1 ring) by lia. cbn [bind].
  set (x0 := cx (nth 0 ring coord_default)). cbv zeta.
  assert (F : forall n lo (s : f64), 1 <= lo -> lo + n <= length ring -> forall b1 b2, (forall i s, 1 <= i -> i < length ring -> b1 i s = b2 i s) -> forN n lo s b1 = forN n lo s b2).
  { induction n as [|n IH]; intros lo s A B b1 b2 H; [reflexivity|]. cbn [forN]. rewrite (H lo s) by lia. destruct (b2 lo s) as [s'|]; [|reflexivity]. cbn [bind]. apply IH; [lia|lia|exact H]. }
  erewrite F; [reflexivity|lia|lia|]. intros i s A B. cbv beta.
  rewrite !(idx_nth _ i coord_default) by (rewrite app_length; cbn; lia). rewrite !(idx_nth _ (i + 1) coord_default) by (rewrite app_length; cbn; lia). cbn [bind].
  unfold usub. destruct (Nat.leb_spec 1 i) as [Q|Q]; [|lia]. cbn [bind]. rewrite !(idx_nth _ (i - 1) coord_default) by (rewrite app_length; cbn; lia).
  cbn [bind]. rewrite (app_nth1 ring [p] _ (n := i)), (app_nth1 ring [q] _ (n := i)), (app_nth1 ring [p] _ (n := i - 1)), (app_nth1 ring [q] _ (n := i - 1)) by lia. assert (D : cy (nth (i + 1) (ring ++ [p]) coord_default) = cy (nth (i + 1) (ring ++ [q]) coord_default)).
  { destruct (Nat.eq_dec (i + 1) (length ring)) as [Z|Z]; [rewrite !app_nth2 by lia; rewrite Z, Nat.sub_diag; exact E|rewrite !app_nth1 by lia; reflexivity]. }
  rewrite D. reflexivity.
Qed.
Example C86_area_example : let ring := [ipt 0 0; ipt 0 4; new_xy fnan f1; ipt 0 0] in
  4 <= length ring /\ Exists is_NaN (map cx (removelast ring) ++ map cy ring) /\
  match signed_area_vec [ipt 0 0; ipt 0 4; ipt 4 4; new_xy fnan f0] with Ok a => feqb a (fofZ 8) | Panic => false end = true.
Proof. split; [cbn; lia|]. split; [apply Exists_cons_tl, Exists_cons_tl, Exists_cons_hd; reflexivity|vm_compute; reflexivity]. Qed.
