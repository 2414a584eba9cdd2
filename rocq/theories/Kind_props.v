(** C81: kinds and dimensions of geometries. *)
From Coq Require Import ZArith Bool List String Lia.
From Verif Require Import Base F64 Coordinate_model Coordinate_spec CoordArrays_model CoordArrays_spec CoordSeq_model IntersectionMatrix_model Geom_model Geom_proofs Line_props Polygon_proofs Multi_props Kind_model.
Import ListNotations.
Open Scope Z_scope.

(** What a geometry consists of: points, chains of segments or regions.  A ring
    counts as a chain whose ends meet, whatever its points. *)
Inductive Parts := PointSet | Chains (ends_meet : Prop) | Regions.
Definition parts (g : Geo) : Parts :=
  match g with
  | GPt _ | GMPt _ => PointSet
  | GLn l => Chains (closed (lpts l))
  | GRg _ => Chains True
  | GMLn m => Chains (ml_lines m <> [] /\ Forall (fun l => closed (lpts l)) (ml_lines m))
  | GPg _ | GMPg _ => Regions
  end.
Definition same_type (g h : Geo) : Prop :=
  match g, h with
  | GPt _, GPt _ | GLn _, GLn _ | GRg _, GRg _ | GPg _, GPg _ | GMPt _, GMPt _ | GMLn _, GMLn _ | GMPg _, GMPg _ => True
  | _, _ => False
  end.
(** Codes and names tell the types apart, and both are in the same way. *)
Theorem C81_kind : forall g h, (type_code g = type_code h <-> same_type g h) /\ (type_name g = type_name h <-> same_type g h).
Proof. intros [] []; cbn; split; split; intros H; try exact I; try reflexivity; try discriminate H; destruct H. Qed.
(** The codes sort by dimension: points before chains before regions. *)
Theorem C81_code_order : forall g h a b, dimension g = Some a -> dimension h = Some b -> a < b -> type_code g < type_code h.
Proof. intros [] [] a b; cbn; intros A B L; try discriminate; injection A as <-; injection B as <-; lia. Qed.
(** The dimension is that of the parts; the boundary has one dimension less, or
    none at all (FALSE): exactly for point sets and chains whose ends meet. *)
Theorem C81_dimension : forall g, exists b, boundary_dimension g = Ok b /\
  match parts g with
  | PointSet => dimension g = Some dP /\ b = dFALSE
  | Chains meet => (dimension g = Some dL \/ dimension g = None) /\ (b = dFALSE \/ b = dP) /\ (b = dFALSE <-> meet)
  | Regions => dimension g = Some dA /\ b = dL
  end.
Proof.
  intros [p|l|r|p|m|m|m]; cbn [boundary_dimension parts dimension]; try (eexists; split; [reflexivity|]; split; reflexivity).
  - destruct (C67_is_closed l) as (b & _ & H & E). eexists. split; [exact E|]. split; [now left|]. destruct b; (split; [auto|]).
    + split; [intros _; now apply H|reflexivity].
    + split; [discriminate|]. intros C. apply H in C. discriminate.
  - eexists. split; [reflexivity|]. split; [now right|]. split; [now left|]. easy.
  - destruct (C77_line_is_closed m) as (b & _ & H & E). eexists. split; [exact E|]. split; [now left|]. destruct b; (split; [auto|]).
    + split; [intros _; now apply H|reflexivity].
    + split; [discriminate|]. intros C. apply H in C. discriminate.
Qed.
(** A collection has a dimension exactly if it is its dimension, and no other. *)
Theorem C81_has_dimension : forall g dim b, has_dimension g dim = Some b -> (b = true <-> dimension g = Some dim).
Proof.
  intros [] dim b; cbn; intros H; try discriminate; injection H as <-; (rewrite Z.eqb_eq; split; [intros ->; reflexivity|intros E; now injection E]).
Qed.
(** Both dimensions can be written into an intersection matrix and read back. *)
Theorem C81_symbols : forall g d, (dimension g = Some d \/ boundary_dimension g = Ok d) ->
  exists c, to_dimension_symbol d = Some c /\ to_dimension_value c = Some d.
Proof.
  intros g d H. assert (d = dFALSE \/ d = dP \/ d = dL \/ d = dA) as [E|[E|[E|E]]].
  { destruct H as [H|H].
    - destruct g; cbn in H; try discriminate; injection H as <-; auto.
    - destruct (C81_dimension g) as (b & E & P). rewrite E in H. injection H as ->. destruct (parts g); destruct P as (_ & P); [auto| |auto]. destruct P as ([P|P] & _); auto. }
  all: rewrite E; eexists; split; vm_compute; reflexivity.
Qed.
Example C81_example : let l := mkLn (seq_of [new_xy f0 f0; new_xy f1 f1; new_xy f0 f0]) None in let k := mkLn (seq_of [new_xy f0 f0; new_xy f1 f1]) None in
  boundary_dimension (GLn l) = Ok dFALSE /\ boundary_dimension (GLn k) = Ok dP /\ boundary_dimension (GMLn (ml_new [l; k] None)) = Ok dP /\
  boundary_dimension (GMLn (ml_new [l; l] None)) = Ok dFALSE /\ has_dimension (GMLn (ml_new [l] None)) 1 = Some true /\ dimension (GPt pt_default) = Some 0 /\
  dimension (GLn l) = Some 1 /\ has_dimension (GMPt (mp_new [] None)) 1 = Some false.
Proof. repeat split; vm_compute; reflexivity. Qed.
