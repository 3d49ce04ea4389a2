(** Model of the graticule of the stereonet and of the labels where its lines cross
    the frame: attitude/lib/d3v4+jetpack.js:178-190 (sequence), 8440-8530 (graticule),
    attitude/src/stereonet/index.ts:61-73 and 346-361, plots/src/graticule-labels.ts:31-85
    and 128-155.

    Floats are reals. d3.geoPath with the projection, PathParser and Intersection are
    oracles; drawing of the labels is left out. *)
From Coq Require Import Reals List ZArith String.
From Verif Require Import RVec MUi.
Import ListNotations.
Open Scope R_scope.

(** Math.ceil *)
Definition ceilZ (x : R) : Z := (- Int_part (- x))%Z.
(** the operator %: the quotient is rounded toward zero *)
Definition js_rem (x d : R) : R :=
  let q := x / d in x - d * IZR (if Rlt_dec q 0 then ceilZ q else Int_part q).

(** d3v4+jetpack.js:178-190; the step is positive here *)
Definition sequence (start stop step : R) : list R :=
  map (fun i => start + INR i * step) (seq 0 (Z.to_nat (ceilZ ((stop - start) / step)))).

Definition eps : R := 1 / 1000000.
Definition line := list (R * R).
(** 8440-8443 *)
Definition graticuleX (y0 y1 dy x : R) : line := map (fun y => (x, y)) (sequence y0 (y1 - eps) dy ++ [y1]).
(** 8445-8448 *)
Definition graticuleY (x0 x1 dx y : R) : line := map (fun x => (x, y)) (sequence x0 (x1 - eps) dx ++ [x1]).

(** the state of a graticule, 8450-8455; the functions x, y, X and Y are rebuilt by
    [precision] whenever an extent is set *)
Record graticule := mkGrat {
  g_x0 : R; g_x1 : R; g_y0 : R; g_y1 : R;
  g_X0 : R; g_X1 : R; g_Y0 : R; g_Y1 : R;
  g_dx : R; g_dy : R; g_DX : R; g_DY : R }.
Definition precision : R := 5 / 2.
(** 8461-8466 *)
Definition major (start stop step : R) : list R := sequence (IZR (ceilZ (start / step)) * step) stop step.
Definition far (step v : R) : bool := if Rlt_dec eps (Rabs (js_rem v step)) then true else false.
Definition lines (g : graticule) : list line :=
  (map (graticuleX (g_Y0 g) (g_Y1 g) 90) (major (g_X0 g) (g_X1 g) (g_DX g))
  ++ map (graticuleY (g_X0 g) (g_X1 g) precision) (major (g_Y0 g) (g_Y1 g) (g_DY g))
  ++ map (graticuleX (g_y0 g) (g_y1 g) 90) (filter (far (g_DX g)) (major (g_x0 g) (g_x1 g) (g_dx g)))
  ++ map (graticuleY (g_x0 g) (g_x1 g) precision) (filter (far (g_DY g)) (major (g_y0 g) (g_y1 g) (g_dy g))))%list.

(** 8484-8500: an extent is put in order *)
Definition ordered (a b : R) : R * R := if Rlt_dec b a then (b, a) else (a, b).
Definition tiny : R := 1 / 100000.
(** stereonet/index.ts:346-361 *)
Definition setGraticule (lon lat : R) : graticule :=
  let (y0, y1) := ordered (-90 + lat - tiny) (90 - lat + tiny) in
  let (Y0, Y1) := ordered (-90 + tiny) (90 - tiny) in
  mkGrat (-180) 180 y0 y1 (-180) 180 Y0 Y1 lon lat 90 lat.
(** stereonet/index.ts:61-73 *)
Definition defaultGraticule : graticule :=
  let (y0, y1) := ordered (-80 - tiny) (80 + tiny) in
  let (Y0, Y1) := ordered (-90 + tiny) (90 - tiny) in
  mkGrat (-180) 180 y0 y1 (-180) 180 Y0 Y1 10 10 90 10.

(** graticule-labels.ts:6 *)
Inductive ltype := Lon | Lat.
Definition coord (t : ltype) (p : R * R) : R := match t with Lon => fst p | Lat => snd p end.
(** graticule-labels.ts:65: reading a missing point raises TypeError *)
Fixpoint chosen (t : ltype) (ls : list line) : res (list line) :=
  match ls with
  | [] => Ok []
  | (p :: q :: r) :: ls =>
    rbind (chosen t ls) (fun vs => Ok (if Req_EM_T (coord t p) (coord t q) then (p :: q :: r) :: vs else vs))
  | _ => Raise TypeError
  end.

Section Labels.
  Context {path shape point : Type}.
  (** geoPath and PathParser; [None] if parseData throws *)
  Variable draw : line -> option path.
  Variable intersect : path -> shape -> list point.
  (** graticule-labels.ts:66-82 *)
  Fixpoint tagged (t : ltype) (s : shape) (ls : list line) : list (point * R) :=
    match ls with
    | [] => []
    | l :: ls =>
      ((match draw l with
        | None => []
        | Some p => map (fun q => (q, coord t (hd (0, 0) l))) (intersect p s)
        end) ++ tagged t s ls)%list
    end.
  (** graticule-labels.ts:60-85 *)
  Definition getIntersections (t : ltype) (s : shape) (g : graticule) : res (list (point * R)) :=
    rbind (chosen t (lines g)) (fun ls => Ok (tagged t s ls)).
End Labels.

(** graticule-labels.ts:128-155, the texts; [show] writes a number with a degree sign *)
Definition dip_label (show : R -> string) (v : R) : string := show (90 - v).
