(** Model of attitude/display/parametric.py: conic sections drawn in a plane. *)
From Coq Require Import Reals Lra List Arith Bool.
From Verif Require Import RVec Trig MPca MAxes MStereo.
Import ListNotations.
Open Scope R_scope.

(** numpy.argmin and argmax: the first index of the least and of the greatest entry *)
Fixpoint argmin_from (i k : nat) (m : R) (l : list R) : nat :=
  match l with
  | [] => k
  | x :: t => if Rlt_dec x m then argmin_from (S i) i x t else argmin_from (S i) k m t
  end.
Definition argmin (l : list R) : nat :=
  match l with [] => 0%nat | x :: t => argmin_from 1 0 x t end.
Definition argmax (l : list R) : nat := argmin (map Ropp l).

(** parametric.py:33-35: NaN at the extrema *)
Definition remove_asymptotes (extrema : nat * nat) (arr : list R) : list (option R) :=
  map (fun '(i, x) => if (i =? fst extrema)%nat || (i =? snd extrema)%nat then None else Some x)
      (combine (seq 0 (length arr)) arr).

(** parametric.py:17-39.  [NonFinite]: an angle whose cosine is zero, where floats give a
    number of the order of 1e16.  argmin of an empty array raises. *)
Definition hyperbola (axes : R * R) (opens_up : bool) (center : R * R) (n : nat)
  : res (list (option R) * list (option R)) :=
  let th := linspace2pi n in
  if existsb (fun t => if Req_EM_T (cos t) 0 then true else false) th then NonFinite else
  let vals := if opens_up then (map tan th, map (fun t => 1 / cos t) th)
              else (map (fun t => 1 / cos t) th, map tan th) in
  let x := map (fun v => fst axes * v + fst center) (fst vals) in
  let y := map (fun v => snd axes * v + snd center) (snd vals) in
  match x with
  | [] => Raise ValueError
  | _ => let extrema := (argmin x, argmax x) in Ok (remove_asymptotes extrema x, remove_asymptotes extrema y)
  end.

(** parametric.py:42-47 *)
Definition param_ellipse (axes center : R * R) (n : nat) : list R * list R :=
  let th := linspace2pi n in
  (map (fun t => fst axes * cos t + fst center) th, map (fun t => snd axes * sin t + snd center) th).

(** parametric.py:49-54; the axes and the height of the centre.  [None]: division by zero *)
Definition squished_ellipse (axes : R * R) : option ((R * R) * R) :=
  let scalar := 2 in
  if Req_EM_T (fst axes) 0 then None
  else Some ((scalar * sqrt (sqrt 3 / 2) * (snd axes * snd axes) / fst axes, snd axes), scalar * snd axes).
(** parametric.py:56-59 *)
Definition inverse_ellipse (axes : R * R) (scalar : R) : option ((R * R) * R) :=
  if Req_EM_T (fst axes) 0 then None
  else if Req_EM_T (snd axes) 0 then None
  else
    let f a := 1 / a * (snd axes * snd axes) * scalar in
    Some ((f (fst axes), f (snd axes)), f (snd axes) * sqrt 2).
(** parametric.py:61-67 *)
Definition reverse_ellipse (axes : R * R) (scalar : R) : (R * R) * R :=
  let ax1 := (snd axes * scalar, fst axes * scalar) in
  (ax1, snd ax1 * sqrt 2 * scalar).

(** parametric.py:69-126: what is drawn.  The limits are half the sizes of the window;
    [color] in line 83 is not defined anywhere. *)
Record conjugate := mkConjugate {
  cj_hyperbola : list (option R) * list (option R);
  cj_ellipse : list R * list R;
  cj_variance : list R * list R;
  cj_foci : option ((R * R) * (R * R));
  cj_tangents : list ((R * R) * (R * R));
  cj_normal_tangents : list ((R * R) * (R * R));
  cj_limits : R * R }.
(** [c.sort(); c[0] *= -1; sqrt(sum(c))] *)
Definition focal (a b : R) : option R :=
  let lo := Rmin (a * a) (b * b) in
  let hi := Rmax (a * a) (b * b) in fsqrt (- lo + hi).
Definition plot_conjugate_conics (axes : R * R) (width : option R) (plot_foci plot_inverse_hyperbola : bool)
  : res conjugate :=
  rbind (hyperbola axes true (0, 0) 500) (fun hyp =>
  match inverse_ellipse axes 1 with
  | None => NonFinite
  | Some (ax1, center) =>
    if plot_inverse_hyperbola then Raise NameError else
    let foci :=
      if plot_foci then
        obind (fsqrt (fst axes * fst axes + snd axes * snd axes)) (fun hyp_c =>
        obind (focal (fst ax1) (snd ax1)) (fun ell_c => Some ((hyp_c, - hyp_c), (center + ell_c, center - ell_c))))
      else None in
    let xv := (-500, 500) in
    let yv := (snd axes / fst axes * fst xv, snd axes / fst axes * snd xv) in
    let k := if Rlt_dec (1 / 2 * fst axes) (snd axes) then 6 else 4 in
    let width := match width with Some w => w | None => sqrt (fst axes * fst axes + snd axes * snd axes) * k end in
    Ok (mkConjugate hyp (param_ellipse ax1 (0, center) 500) (param_ellipse axes (0, 0) 500) foci
         [((fst xv, fst yv), (snd xv, snd yv)); ((fst xv, - fst yv), (snd xv, - snd yv))]
         [((fst yv, fst xv), (snd yv, snd xv)); ((fst yv, - fst xv), (snd yv, - snd xv))]
         (width / 2, width / 2 * (6 / 10)))
  end).
