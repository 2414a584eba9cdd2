(** Model of src/core/math/matrix.rs.  [usize] values that are counted down are
    integers; [u] is the [usize] arithmetic, [usize_chk] in a build with
    overflow checks and [usize_wrapping] in one without.  Loops that count down
    take a bound on the number of turns, and give [None] when it is used up. *)
From Coq Require Import ZArith Bool List.
From Verif Require Import Base F64.
Import ListNotations.
Open Scope Z_scope.

Definition usize_wrapping (z : Z) : res Z := Ok (usize_wrap z).
(** [v[k]], [v[k] = x], [m[i][k]] and [m[i][k] = x]. *)
Definition zidx {A} (l : list A) (k : Z) : res A :=
  if (0 <=? k) && (k <? Z.of_nat (length l)) then idx l (Z.to_nat k) else Panic.
Definition zupd {A} (l : list A) (k : Z) (x : A) : res (list A) :=
  if (0 <=? k) && (k <? Z.of_nat (length l)) then upd l (Z.to_nat k) x else Panic.
Definition get2 (m : list (list f64)) (i k : Z) : res f64 := r <- zidx m i ;; zidx r k.
Definition set2 (m : list (list f64)) (i k : Z) (x : f64) : res (list (list f64)) :=
  r <- zidx m i ;; r' <- zupd r k x ;; zupd m i r'.

(** matrix.rs 12-21: [swap_rows_2d]. *)
Definition swap_rows_2d (m : list (list f64)) (i j : nat) : res (list (list f64)) :=
  if Nat.eqb i j then Ok m
  else
    r0 <- idx m 0 ;;
    forN (length r0) 0 m (fun col m =>
      temp <- get2 m (Z.of_nat i) (Z.of_nat col) ;;
      x <- get2 m (Z.of_nat j) (Z.of_nat col) ;;
      m <- set2 m (Z.of_nat i) (Z.of_nat col) x ;;
      set2 m (Z.of_nat j) (Z.of_nat col) temp).
(** matrix.rs 23-30: [swap_rows_1d]. *)
Definition swap_rows_1d (m : list f64) (i j : nat) : res (list f64) :=
  if Nat.eqb i j then Ok m
  else
    temp <- idx m i ;;
    x <- idx m j ;;
    m <- upd m i x ;;
    upd m j temp.

Section Solve.
Variable u : Z -> res Z.
(** matrix.rs 54-62: the row of the largest pivot. *)
Definition pivot_row (a : list (list f64)) (n i : nat) : res nat :=
  forN (n - (i + 1)) (i + 1) i (fun j m =>
    x <- get2 a (Z.of_nat j) (Z.of_nat i) ;;
    y <- get2 a (Z.of_nat m) (Z.of_nat i) ;;
    Ok (if fgtb (fabs x) (fabs y) then j else m)).
(** matrix.rs 76-80: [while k >= i { a[j][k] -= a[i][k] * row_factor; k -= 1 }]. *)
Fixpoint eliminate_row (fuel : nat) (i j : Z) (row_factor : f64) (a : list (list f64)) (k : Z) : option (res (list (list f64))) :=
  match fuel with
  | O => None
  | S fuel =>
      if i <=? k then
        match (x <- get2 a j k ;; y <- get2 a i k ;; a' <- set2 a j k (fsub x (fmul y row_factor)) ;; k' <- u (k - 1) ;; Ok (a', k')) with
        | Panic => Some Panic
        | Ok (a', k') => eliminate_row fuel i j row_factor a' k'
        end
      else Some (Ok a)
  end.
(** matrix.rs 73-83: the rows below row [i]; [r] of them are left, the next one is [j]. *)
Fixpoint eliminate_below (fuel : nat) (n i r j : nat) (a : list (list f64)) (b : list f64) : option (res (list (list f64) * list f64)) :=
  match r with
  | O => Some (Ok (a, b))
  | S r =>
      match (x <- get2 a (Z.of_nat j) (Z.of_nat i) ;; y <- get2 a (Z.of_nat i) (Z.of_nat i) ;; k <- u (Z.of_nat n - 1) ;; Ok (fdiv x y, k)) with
      | Panic => Some Panic
      | Ok (row_factor, k) =>
          match eliminate_row fuel (Z.of_nat i) (Z.of_nat j) row_factor a k with
          | None => None
          | Some Panic => Some Panic
          | Some (Ok a) =>
              match (x <- idx b j ;; y <- idx b i ;; upd b j (fsub x (fmul y row_factor))) with
              | Panic => Some Panic
              | Ok b => eliminate_below fuel n i r (S j) a b
              end
          end
      end
  end.
(** matrix.rs 53-84: the outer loop; [r] rows are left, the next one is [i].  The last
    component of the result tells whether the loop ran through. *)
Fixpoint eliminate (fuel : nat) (n r i : nat) (a : list (list f64)) (b : list f64) : option (res (list (list f64) * list f64 * bool)) :=
  match r with
  | O => Some (Ok (a, b, true))
  | S r =>
      match (m <- pivot_row a n i ;; x <- get2 a (Z.of_nat m) (Z.of_nat i) ;; Ok (m, x)) with
      | Panic => Some Panic
      | Ok (m, x) =>
          if feqb x f0 then Some (Ok (a, b, false))
          else
            match (a <- swap_rows_2d a i m ;; b <- swap_rows_1d b i m ;; Ok (a, b)) with
            | Panic => Some Panic
            | Ok (a, b) =>
                match eliminate_below fuel n i (n - (i + 1)) (i + 1) a b with
                | None => None
                | Some Panic => Some Panic
                | Some (Ok (a, b)) => eliminate fuel n r (S i) a b
                end
            end
      end
  end.
(** matrix.rs 92-97: [while k < n { t += a[j][k] * solution[k]; k += 1 }]. *)
Fixpoint back_sum (fuel : nat) (a : list (list f64)) (solution : list f64) (n j k : Z) (t : f64) : option (res f64) :=
  match fuel with
  | O => None
  | S fuel =>
      if k <? n then
        match (x <- get2 a j k ;; y <- zidx solution k ;; k' <- u (k + 1) ;; Ok (fadd t (fmul x y), k')) with
        | Panic => Some Panic
        | Ok (t, k') => back_sum fuel a solution n j k' t
        end
      else Some (Ok t)
  end.
(** matrix.rs 89-100: [while j >= 0], always true of a [usize]. *)
Fixpoint back_substitute (fuel : nat) (a : list (list f64)) (b solution : list f64) (n j : Z) : option (res (list f64)) :=
  match fuel with
  | O => None
  | S fuel =>
      if 0 <=? j then
        match u (j + 1) with
        | Panic => Some Panic
        | Ok k =>
            match back_sum fuel a solution n j k f0 with
            | None => None
            | Some Panic => Some Panic
            | Some (Ok t) =>
                match (x <- zidx b j ;; y <- get2 a j j ;; s <- zupd solution j (fdiv (fsub x t) y) ;; j' <- u (j - 1) ;; Ok (s, j')) with
                | Panic => Some Panic
                | Ok (s, j') => back_substitute fuel a b s n j'
                end
            end
        end
      else Some (Ok solution)
  end.
(** matrix.rs 45-102: [solve], with the final contents of [a] and [b]. *)
Definition solve (fuel : nat) (a : list (list f64)) (b : list f64) : option (res (list (list f64) * list f64 * option (list f64))) :=
  let n := length b in
  match (if negb (Nat.eqb (length a) n) then Ok true else r0 <- idx a 0 ;; Ok (negb (Nat.eqb (length r0) n))) with
  | Panic => Some Panic
  | Ok true => Some (Ok (a, b, None))
  | Ok false =>
      match eliminate fuel n n 0 a b with
      | None => None
      | Some Panic => Some Panic
      | Some (Ok (a, b, false)) => Some (Ok (a, b, None))
      | Some (Ok (a, b, true)) =>
          match u (Z.of_nat n - 1) with
          | Panic => Some Panic
          | Ok j =>
              match back_substitute fuel a b (repeat fnan n) (Z.of_nat n) j with
              | None => None
              | Some Panic => Some Panic
              | Some (Ok s) => Some (Ok (a, b, Some s))
              end
          end
      end
  end.
End Solve.
