(** C86, continued: NaN ordinates in envelopes. *)
From Coq Require Import ZArith Bool List Lia Permutation.
From Flocq Require Import Core IEEE754.BinarySingleNaN.
From Verif Require Import Base F64 F64Facts Coordinate_model Envelope_model Orientation_props Nan_props.
Import ListNotations.
Open Scope Z_scope.

(** [lo] and [hi] are the least and the greatest of the numbers among [vs]; what is NaN is passed over. *)
Definition bounds (vs : list f64) (lo hi : f64) : Prop :=
  In lo vs /\ In hi vs /\ forall v, In v vs -> nn v -> fleb lo v = true /\ fleb v hi = true.
Definition axis (lo hi : f64) (vs : list f64) : f64 * f64 :=
  (fold_left (fun m v => if fltb v m then v else m) vs lo, fold_left (fun m v => if fgtb v m then v else m) vs hi).
Lemma lo_nan vs : fold_left (fun m v => if fltb v m then v else m) vs fnan = fnan.
Proof. induction vs as [|v vs IH]; [reflexivity|]. cbn [fold_left]. nanc. exact IH. Qed.
Lemma hi_nan vs : fold_left (fun m v => if fgtb v m then v else m) vs fnan = fnan.
Proof. induction vs as [|v vs IH]; [reflexivity|]. cbn [fold_left]. nanc. exact IH. Qed.
Lemma fgtb_nn' a b : fgtb a b = true -> nn a /\ nn b.
Proof. intros H. change (fltb b a = true) in H. destruct (fltb_nn _ _ H). auto. Qed.
Lemma lo_spec vs : forall m, nn m -> let r := fold_left (fun m v => if fltb v m then v else m) vs m in
  nn r /\ In r (m :: vs) /\ forall v, In v (m :: vs) -> nn v -> fleb r v = true.
Proof.
  induction vs as [|w vs IH]; intros m M; cbn [fold_left].
  - split; [exact M|]. split; [now left|]. intros v [<-|[]] _. rewrite fleb_rank by assumption. apply Z.leb_refl.
  - destruct (fltb w m) eqn:E.
    + destruct (fltb_nn _ _ E) as (W & _). destruct (IH w W) as (A & B & C). split; [exact A|]. split; [now right|].
      intros v [<-|I] V; [|now apply C]. specialize (C w (or_introl eq_refl) W).
      rewrite fleb_rank in C |- * by assumption. rewrite fltb_rank in E by assumption. lia.
    + destruct (IH m M) as (A & B & C). split; [exact A|]. split; [destruct B; [now left|right; now right]|].
      intros v [<-|[<-|I]] V; [apply C; [now left|exact V]| |apply C; [now right|exact V]].
      specialize (C m (or_introl eq_refl) M). rewrite fleb_rank in C |- * by assumption. rewrite fltb_rank in E by assumption. lia.
Qed.
Lemma hi_spec vs : forall m, nn m -> let r := fold_left (fun m v => if fgtb v m then v else m) vs m in
  nn r /\ In r (m :: vs) /\ forall v, In v (m :: vs) -> nn v -> fleb v r = true.
Proof.
  induction vs as [|w vs IH]; intros m M; cbn [fold_left].
  - split; [exact M|]. split; [now left|]. intros v [<-|[]] _. rewrite fleb_rank by assumption. apply Z.leb_refl.
  - destruct (fgtb w m) eqn:E.
    + destruct (fgtb_nn' _ _ E) as (W & _). destruct (IH w W) as (A & B & C). split; [exact A|]. split; [now right|].
      intros v [<-|I] V; [|now apply C]. specialize (C w (or_introl eq_refl) W).
      rewrite fleb_rank in C |- * by assumption. rewrite fgtb_rank in E by assumption. lia.
    + destruct (IH m M) as (A & B & C). split; [exact A|]. split; [destruct B; [now left|right; now right]|].
      intros v [<-|[<-|I]] V; [apply C; [now left|exact V]| |apply C; [now right|exact V]].
      specialize (C m (or_introl eq_refl) M). rewrite fleb_rank in C |- * by assumption. rewrite fgtb_rank in E by assumption. lia.
Qed.
(** Once a point is in, the x bounds never look null again. *)
Definition settled (e : Envelope) : Prop := (minx e = fnan /\ maxx e = fnan) \/ (nn (minx e) /\ nn (maxx e) /\ fleb (minx e) (maxx e) = true).
Lemma settled_not_null e : settled e -> is_null e = false.
Proof.
  unfold is_null. intros [(-> & ->)|(A & B & C)]; [apply lt_nan_l|]. rewrite fleb_rank in C by assumption. rewrite fltb_rank by assumption. lia.
Qed.
Lemma settled_step e p : settled e -> settled (expand_to_include_coordinate e p).
Proof.
  intros S. unfold expand_to_include_coordinate. rewrite (settled_not_null e S). unfold settled in *. cbn [minx maxx].
  destruct S as [(-> & ->)|(A & B & C)]; [left; nanc; auto|right].
  destruct (fltb (cx p) (minx e)) eqn:L; [destruct (fltb_nn _ _ L) as (P & _)|]; (destruct (fgtb (cx p) (maxx e)) eqn:G; [destruct (fgtb_nn' _ _ G) as (P' & _)|]);
    repeat (split; [assumption|]); rewrite fleb_rank in C |- * by assumption; try rewrite fltb_rank in L by assumption; try rewrite fgtb_rank in G by assumption; lia.
Qed.
Lemma fold_axes ps : forall e, settled e ->
  let r := fold_left expand_to_include_coordinate ps e in
  (minx r, maxx r) = axis (minx e) (maxx e) (map cx ps) /\ (miny r, maxy r) = axis (miny e) (maxy e) (map cy ps).
Proof.
  induction ps as [|p ps IH]; intros e S; [split; reflexivity|]. cbn [fold_left map].
  destruct (IH _ (settled_step e p S)) as (A & B). cbn zeta. rewrite A, B. unfold expand_to_include_coordinate. rewrite (settled_not_null e S). cbn [minx maxx miny maxy].
  split; reflexivity.
Qed.
Lemma nan_or x : x = fnan \/ nn x. Proof. destruct x; [right|right|left|right]; try reflexivity; exact I || reflexivity. Qed.
Lemma settled_first p : settled (mkE (cx p) (cx p) (cy p) (cy p)).
Proof. unfold settled. cbn [minx maxx]. destruct (nan_or (cx p)) as [->|N]; [left; auto|right]. repeat (split; [assumption|]). rewrite fleb_rank by assumption. apply Z.leb_refl. Qed.
(** The first point decides on each axis: if its ordinate is a number, the
    envelope is the range of the numbers on that axis and NaN is passed over; if
    it is NaN, both bounds are NaN whatever follows. *)
Theorem C86_envelope : forall p ps, let e := envelope_of (p :: ps) in
  is_null e = false /\
  (nn (cx p) -> bounds (map cx (p :: ps)) (minx e) (maxx e)) /\ (is_NaN (cx p) -> is_NaN (minx e) /\ is_NaN (maxx e)) /\
  (nn (cy p) -> bounds (map cy (p :: ps)) (miny e) (maxy e)) /\ (is_NaN (cy p) -> is_NaN (miny e) /\ is_NaN (maxy e)).
Proof.
  intros p ps e. pose proof (fold_axes ps _ (settled_first p)) as F. cbn zeta in F.
  assert (S : forall l q, settled q -> settled (fold_left expand_to_include_coordinate l q)) by (induction l as [|a l IH]; intros q Q; [exact Q|apply IH, settled_step, Q]).
  assert (E : e = fold_left expand_to_include_coordinate ps (mkE (cx p) (cx p) (cy p) (cy p))) by reflexivity.
  split; [rewrite E; apply settled_not_null, S, settled_first|]. rewrite <- E in F. unfold axis in F. cbn [minx maxx miny maxy] in F.
  destruct F as (Fx & Fy). injection Fx as X1 X2. injection Fy as Y1 Y2. rewrite X1, X2, Y1, Y2. unfold is_NaN. cbn [map].
  assert (K : forall a l, nn a -> bounds (a :: l) (fold_left (fun m v => if fltb v m then v else m) l a) (fold_left (fun m v => if fgtb v m then v else m) l a)).
  { intros a l A. destruct (lo_spec l a A) as (_ & I1 & L). destruct (hi_spec l a A) as (_ & I2 & H). split; [exact I1|]. split; [exact I2|]. intros v I V. split; [now apply L|now apply H]. }
  split; [apply K|]. split; [intros ->; split; [apply lo_nan|apply hi_nan]|]. split; [apply K|]. intros ->; split; [apply lo_nan|apply hi_nan].
Qed.
(** An envelope that starts with a point of two NaN meets every point and covers none. *)
Theorem C86_envelope_lost : forall p ps x y, is_NaN (cx p) -> is_NaN (cy p) ->
  intersects_xy (envelope_of (p :: ps)) x y = true /\ covers_xy (envelope_of (p :: ps)) x y = false.
Proof.
  intros p ps x y X Y. destruct (C86_envelope p ps) as (N & _ & A & _ & B). destruct (A X) as (A1 & A2). destruct (B Y) as (B1 & B2).
  unfold intersects_xy, covers_xy. unfold is_NaN in *. rewrite N, A1, A2, B1, B2. nanc. split; reflexivity.
Qed.
(** So the envelope depends on the order of the points. *)
Theorem C86_order_refuted : ~ (forall pts pts' x y, Permutation pts pts' -> covers_xy (envelope_of pts) x y = covers_xy (envelope_of pts') x y).
Proof.
  intros H. specialize (H [ipt 0 0; new_xy fnan fnan; ipt 4 4] [new_xy fnan fnan; ipt 0 0; ipt 4 4] f1 f1 ltac:(constructor)).
  vm_compute in H. discriminate H.
Qed.
Example C86_envelope_example : nn (cx (ipt 0 0)) /\ is_NaN (cx (new_xy fnan f1)) /\
  covers_xy (envelope_of [ipt 0 0; new_xy fnan (fofZ 7); ipt 4 4]) f1 (fofZ 7) = true /\
  covers_xy (envelope_of [new_xy fnan fnan; ipt 0 0; ipt 4 4]) f1 f1 = false /\ intersects_xy (envelope_of [new_xy fnan fnan; ipt 0 0; ipt 4 4]) (fofZ 100) f1 = true.
Proof. repeat (split; [vm_compute; reflexivity|]). vm_compute; reflexivity. Qed.
