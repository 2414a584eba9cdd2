(** Specifications for coordinate sequences. *)
From Coq Require Import ZArith Bool List.
From Verif Require Import Base F64 Coordinate_model Coordinate_spec Envelope_model Envelope_spec CoordSeq_model.
Import ListNotations.
Open Scope nat_scope.

(** Ordinate [k] of a point: X, Y, Z, M. *)
Definition ord4 (c : Coordinate) (k : nat) : f64 :=
  match k with 0 => cx c | 1 => cy c | 2 => cz c | 3 => cm c | _ => fnan end.
(** The first [d] of X, Y, Z from [a], everything else from [b]. *)
Definition blend (d : Z) (a b : Coordinate) : Coordinate :=
  mkC (if Z.ltb 0 d then cx a else cx b) (if Z.ltb 1 d then cy a else cy b)
      (if Z.ltb 2 d then cz a else cz b) (cm b).
(** Equal in the first [d] of X, Y, Z, as values of the datatype. *)
Definition same_upto (d : Z) (a b : Coordinate) : Prop :=
  forall k, (k < 3)%nat -> (Z.of_nat k < d)%Z -> ord4 a k = ord4 b k.

(** Point [i] of a sequence. *)
Definition point (s : CSeq) (i : nat) : Coordinate := nth i (scoords s) coord_default.
(** Ordinate [k] of point [i] in the flat layout of a packed sequence. *)
Definition flat (p : Packed) (i k : nat) : f64 := nth (i * Z.to_nat (pdim p) + k) (pcoords p) fnan.
(** A packed sequence with [n] complete points. *)
Definition packed_ok (p : Packed) (n : nat) : Prop :=
  (2 <= pdim p <= i32_max)%Z /\ length (pcoords p) = (n * Z.to_nat (pdim p))%nat /\
  (Z.of_nat (length (pcoords p)) <= usize_max)%Z.

(** The packed sequence and the array sequence hold the same XY or XYZ points. *)
Definition same_content (p : Packed) (s : CSeq) : Prop :=
  (pdim p = 2 \/ pdim p = 3)%Z /\ pmeas p = 0%Z /\ sdim s = pdim p /\
  packed_ok p (length (scoords s)) /\
  forall i k, (i < length (scoords s))%nat -> (Z.of_nat k < pdim p)%Z -> flat p i k = ord4 (point s i) k.

(** A history of ordinate assignments: point, ordinate, value. *)
Definition assign := (nat * nat * f64)%type.
Fixpoint assigns_p (p : Packed) (h : list assign) : res Packed :=
  match h with
  | [] => Ok p
  | (i, k, v) :: t => p' <- packed_set p i (Z.of_nat k) v ;; assigns_p p' t
  end.
Fixpoint assigns_s (s : CSeq) (h : list assign) : res CSeq :=
  match h with
  | [] => Ok s
  | (i, k, v) :: t => s' <- seq_set s i (Z.of_nat k) v ;; assigns_s s' t
  end.

(** Order of doubles with NaN lowest and equal to itself. *)
Definition ford_lt (a b : f64) : Prop := (fis_nan a = true /\ fis_nan b = false) \/ ltf a b.
Definition ford_eq (a b : f64) : Prop := (fis_nan a = true /\ fis_nan b = true) \/ eqf a b.
(** Lexicographic order of lists; a proper prefix comes first. *)
Inductive lexi {A} (lt eq : A -> A -> Prop) : list A -> list A -> Prop :=
| lexi_prefix b t : lexi lt eq [] (b :: t)
| lexi_head a b s t : lt a b -> lexi lt eq (a :: s) (b :: t)
| lexi_tail a b s t : eq a b -> lexi lt eq s t -> lexi lt eq (a :: s) (b :: t).
(** The first [d] ordinates as the sequence reports them (NaN past Z). *)
Definition row (d : Z) (c : Coordinate) : list f64 :=
  map (fun k => if Nat.ltb k 3 then ord4 c k else fnan) (seq 0 (Z.to_nat d)).
Definition rows (d : Z) (s : CSeq) : list (list f64) := map (row d) (scoords s).
Definition row_lt := lexi ford_lt ford_eq.
Definition row_eq := Forall2 ford_eq.
(** Order of sequences under a dimension limit. *)
Definition seq_lt (limit : Z) (s1 s2 : CSeq) : Prop :=
  let d1 := Z.min limit (sdim s1) in
  let d2 := Z.min limit (sdim s2) in
  (d1 < d2)%Z \/ (d1 = d2 /\ lexi row_lt row_eq (rows d1 s1) (rows d1 s2)).
Definition seq_eq (limit : Z) (s1 s2 : CSeq) : Prop :=
  let d1 := Z.min limit (sdim s1) in
  let d2 := Z.min limit (sdim s2) in
  d1 = d2 /\ Forall2 row_eq (rows d1 s1) (rows d1 s2).
