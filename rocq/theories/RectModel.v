(** RectModel.v — gopdf.go:2049-2130 Rectangle, on top of DrawModel (the polygon it draws) and NumModel (float64 or exact).
    math.Cos, math.Sin and math.Pi are parameters. The loop over the angles has a step budget; [Running] means it is not
    over within the budget. *)
From Coq Require Import QArith Lqa.
From Coq Require Import Floats.SpecFloat.
From Verif Require Import Base NumModel UnitModel DrawModel.
Open Scope Z_scope.

Inductive outcome := Done | ErrInvalidRectangleCoordinates | Running.
Section Rect.
  Variable N : num.
  Variables cos sin : T N -> T N.
  Variable pi : T N.
  Variable rot : T N -> T N * T N.
  Notation T := (T N).
  Notation "a +. b" := (nadd N a b) (at level 50, left associativity).
  Notation "a -. b" := (nsub N a b) (at level 50, left associativity).
  Notation "a *. b" := (nmul N a b) (at level 40, left associativity).
  Notation "a /. b" := (ndiv N a b) (at level 40, left associativity).
  Notation z := (nofZ N).
  (** gopdf.go:2069-2075: for accAngle < 90 { degrees = append(degrees, accAngle); accAngle += angle } *)
  Fixpoint degrees (fuel : nat) (acc angle : T) : option (list T) :=
    if nlt N acc (z 90) then
      match fuel with
      | O => None
      | S f => match degrees f (acc +. angle) angle with Some l => Some (acc :: l) | None => None end
      end
    else Some [].
  (** gopdf.go:2081-2125, the points in order. *)
  Definition corner_points (x0 y0 x1 y1 r : T) (radians : list T) : list (T * T) :=
    let ox v := r *. cos v in let oy v := r *. sin v in
    (x0, y0 +. r) :: map (fun v => (x0 +. r -. ox v, y0 +. r -. oy v)) radians ++ [(x0 +. r, y0)] ++
    (x1 -. r, y0) :: map (fun v => (x1 -. r +. ox v, y0 +. r -. oy v)) (rev radians) ++ [(x1, y0 +. r)] ++
    (x1, y1 -. r) :: map (fun v => (x1 -. r +. ox v, y1 -. r +. oy v)) radians ++ [(x1 -. r, y1)] ++
    (x0 +. r, y1) :: map (fun v => (x0 +. r -. ox v, y1 -. r +. oy v)) (rev radians) ++ [(x0, y1 -. r)].
  Definition rectangle (fuel : nat) (s : ds N) (x0 y0 x1 y1 : T) (style : bytes) (radius : T) (n : Z) : ds N * outcome :=
    let polygon pts := match step N s (Polygon N pts style) with Some s' => (s', Done) | None => (s, Done) end in
    if nle N x1 x0 || nle N y1 y0 then (s, ErrInvalidRectangleCoordinates)                    (* 2050-2052 *)
    else if (n <=? 0) || nle N radius (z 0) then polygon [(x0, y0); (x1, y0); (x1, y1); (x0, y1)]  (* 2053-2060 *)
    else if nlt N (x1 -. x0) radius || nlt N (y1 -. y0) radius then (s, ErrInvalidRectangleCoordinates)  (* 2064-2066 *)
    else
      let angle := z 90 /. z (n + 1) in                                                        (* 2069-2070 *)
      match degrees fuel angle angle with
      | None => (s, Running)
      | Some ds => polygon (corner_points x0 y0 x1 y1 radius (map (fun v => v *. pi /. z 180) ds))  (* 2077-2127 *)
      end.
End Rect.
