(** Model of the functions of the geometry types that tell one kind of geometry
    from another: type names, type codes and dimensions (point.rs,
    line_string.rs, linear_ring.rs, polygon.rs, multi_point.rs,
    multi_line_string.rs, multi_polygon.rs, geometry.rs). *)
From Coq Require Import ZArith Bool List String.
From Verif Require Import Base IntersectionMatrix_model Geom_model.
Import ListNotations.
Open Scope Z_scope.

(** A geometry of one of the seven types.  The crate has no such sum; the
    functions below are the methods of the same name on each type. *)
Inductive Geo := GPt (p : GPoint) | GLn (l : GLine) | GRg (r : GRing) | GPg (p : GPoly)
  | GMPt (m : GMPoint) | GMLn (m : GMLine) | GMPg (m : GMPoly).
(** geometry.rs 140-147 with point.rs 260-262, line_string.rs 319-321,
    linear_ring.rs 165-167, polygon.rs 426-428, multi_point.rs 271-273,
    multi_line_string.rs 159-161, multi_polygon.rs 225-227: [get_type_code]. *)
Definition type_code (g : Geo) : Z :=
  match g with GPt _ => 0 | GMPt _ => 1 | GLn _ => 2 | GRg _ => 3 | GMLn _ => 4 | GPg _ => 5 | GMPg _ => 6 end.
(** geometry.rs 149-156 with point.rs 130-132, line_string.rs 137-139,
    linear_ring.rs 161-163, polygon.rs 228-230, multi_point.rs 81-83,
    multi_line_string.rs 75-77, multi_polygon.rs 86-88: [get_geometry_type]. *)
Definition type_name (g : Geo) : string :=
  match g with
  | GPt _ => "Point" | GMPt _ => "MultiPoint" | GLn _ => "LineString" | GRg _ => "LinearRing"
  | GMLn _ => "MultiLineString" | GPg _ => "Polygon" | GMPg _ => "MultiPolygon"
  end%string.
(** point.rs 100-102, line_string.rs 85-87, polygon.rs 164-166, multi_point.rs 69-71,
    multi_line_string.rs 60-62, multi_polygon.rs 74-76: [get_dimension].  LinearRing
    has no such method. *)
Definition dimension (g : Geo) : option Z :=
  match g with GPt _ | GMPt _ => Some 0 | GLn _ | GMLn _ => Some 1 | GPg _ | GMPg _ => Some 2 | GRg _ => None end.
(** multi_point.rs 73-75, multi_line_string.rs 64-66, multi_polygon.rs 78-80:
    [has_dimension]; the other types have none. *)
Definition has_dimension (g : Geo) (dim : Z) : option bool :=
  match g with GMPt _ => Some (dim =? 0) | GMLn _ => Some (dim =? 1) | GMPg _ => Some (dim =? 2) | _ => None end.
(** point.rs 104-106, line_string.rs 89-94, linear_ring.rs 129-131, polygon.rs 168-170,
    multi_point.rs 77-79, multi_line_string.rs 68-73, multi_polygon.rs 82-84:
    [get_boundary_dimension]. *)
Definition boundary_dimension (g : Geo) : res Z :=
  match g with
  | GPt _ | GMPt _ | GRg _ => Ok dFALSE
  | GLn l => ln_boundary_dimension l
  | GMLn m => ml_boundary_dimension m
  | GPg _ | GMPg _ => Ok 1
  end.
