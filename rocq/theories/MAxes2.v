(** Model of the rest of attitude/error/axes.py: regression and Jolliffe axes,
    keyword arguments. *)
From Coq Require Import Reals Lra List Bool String.
From Verif Require Import RVec LNum MConics MPca MAxes.
Import ListNotations.
Open Scope R_scope.

(** axes.py:13-22 *)
Definition mean_estimator (data_variance n ddof : R) : option R := fdiv data_variance (n - ddof).

(** axes.py:80-100; [ppf] is scipy.stats.norm.ppf (the value of norm.pdf is
    overwritten) *)
Definition jolliffe_axes (ppf : R -> option R) (conf : R) (f : pca) : option vec3 :=
  let n := n_of f in
  obind (eigenvalues f) (fun e =>
  obind (fdiv (n - 1) n) (fun k =>
  let l := vscale k e in
  obind (ppf (conf / 2)) (fun z =>
  obind (fdiv 2 (n - 1)) (fun q =>
  obind (fsqrt q) (fun tau =>
  obind (fsqrt (1 + tau * z)) (fun r =>
  obind (fdiv 1 r) (fun i =>
  let lc := vscale i l in
  Some (V3 (vx lc) (vy lc) (vz e - vz lc))))))))).

(** axes.py:192-194: a row of the design matrix *)
Definition design (p : vec3) : vecn := fun i =>
  match i with O => vx p | 1%nat => vy p | _ => 1 end.
(** axes.py:198, 203: dot(X.T, X) and dot(X.T, y) *)
Definition reg_gram (arr : list vec3) : matn := fun i j => sumf (fun p => design p i * design p j) arr.
Definition reg_rhs (arr : list vec3) : vecn := fun i => sumf (fun p => design p i * vz p) arr.
(** axes.py:190-203, with the inverse it computes *)
Definition regression_fit (inv : inv_fn) (f : pca) : res (matn * vecn) :=
  let arr := rotated f in
  match inv 3%nat (reg_gram arr) with
  | None => Raise LinAlgError
  | Some B => Ok (B, mulv 3 B (reg_rhs arr))
  end.
(** axes.py:205-206; an empty array has no inverse above *)
Definition reg_mse (arr : list vec3) (b : vecn) : R :=
  sumf (fun p => let e := vz p - sumn 3 (fun i => design p i * b i) in e * e) arr / INR (List.length arr).
(** axes.py:190-216.  The last element of 1/h is overwritten, so that only the first
    two must be finite. *)
Definition regression_axes (inv : inv_fn) (st : stats) (conf : R) (f : pca) : res vec3 :=
  rbind (regression_fit inv f) (fun '(B, b) =>
  let mse := reg_mse (rotated f) b in
  match obind (chi2_ppf st conf 2) (fun sigma =>
        obind (vsqrt (V3 (mse * B 0 0) (mse * B 1 1) (mse * B 2 2))%nat) (fun r =>
        let h := vscale sigma r in
        obind (fdiv 1 (vx h)) (fun a0 =>
        obind (fdiv 1 (vy h)) (fun a1 =>
        Some (V3 a0 a1 (vz h * vz h)))))) with
  | Some a => Ok a
  | None => NonFinite
  end).

(** * Keyword arguments *)
Inductive kval := KR (r : R) | KB (b : bool) | KS (s : string).
Definition dict := list (string * kval).
Fixpoint lookup (k : string) (d : dict) : option kval :=
  match d with
  | [] => None
  | (k', v) :: t => if String.eqb k k' then Some v else lookup k t
  end.
Definition remove (k : string) (d : dict) : dict := filter (fun kv => negb (String.eqb k (fst kv))) d.
(** dict.pop(k, default) *)
Definition pop (k : string) (default : kval) (d : dict) : kval * dict :=
  match lookup k d with Some v => (v, remove k d) | None => (default, d) end.

(** arithmetic on anything but a number fails *)
Definition number (v : kval) : res R :=
  match v with KR r => Ok r | KB b => Ok (if b then 1 else 0) | KS _ => Raise TypeError end.
Definition truth (v : kval) : bool :=
  match v with
  | KR r => if Req_EM_T r 0 then false else true
  | KB b => b
  | KS s => negb (String.eqb s "")
  end.

(** What [fit] may be: a fit has eigenvalues, a ReconstructedPlane
    (reconstructed.py:39-100) only hyperbolic axes *)
Inductive anyfit := Fitted (f : pca) | Given (hyp : vec3).

Definition of_option {A} (o : option A) : res A := match o with Some a => Ok a | None => NonFinite end.

(** axes.py:108-146: popped keywords, then the others to apply_error_scaling, which
    takes only variance_on_all_axes.  An unknown method leaves cov unbound
    (UnboundLocalError, a NameError). *)
Definition statistical_axes_kw (st : stats) (x : anyfit) (kw : dict) : res vec3 :=
  let '(m, kw) := pop "method" (KS "noise") kw in
  let '(c, kw) := pop "confidence_level" (KR (95 / 100)) kw in
  let '(d, kw) := pop "dof" (KR 2) kw in
  match x with
  | Given _ => Raise AttributeError
  | Fitted f =>
    let meth := match m with
                | KS s => if String.eqb s "sampling" then Some MSampling
                          else if String.eqb s "noise" then Some MNoise else None
                | _ => None
                end in
    match meth with
    | None => Raise NameError
    | Some me =>
      let '(q, kw) := pop "chisq" (KB false) kw in
      rbind (number c) (fun conf =>
      rbind (number d) (fun dof =>
      let '(v, kw) := pop "variance_on_all_axes" (KB true) kw in
      match kw with
      | _ :: _ => Raise TypeError
      | [] => of_option (statistical_axes st (mkKw me conf dof (truth q) (truth v)) f)
      end))
    end
  end.
(** axes.py:148-165: a second method= is a TypeError *)
Definition method_axes (st : stats) (m : string) (x : anyfit) (kw : dict) : res vec3 :=
  match lookup "method" kw with
  | Some _ => Raise TypeError
  | None => statistical_axes_kw st x (("method"%string, KS m) :: kw)
  end.
(** pca.py:284-286 and reconstructed.py:89: the attribute *)
Definition own_axes (st : stats) (x : anyfit) : res vec3 :=
  match x with Fitted f => of_option (MAxes.hyperbolic_axes st f) | Given h => Ok h end.
(** axes.py:218-226: every exception is caught *)
Definition hyperbolic_axes_kw (st : stats) (x : anyfit) (kw : dict) : res vec3 :=
  let '(ty, kw) := pop "type" (KS "noise") kw in
  let noise := match ty with KS s => String.eqb s "noise" | _ => false end in
  match method_axes st (if noise then "noise" else "sampling") x kw with
  | Raise _ => own_axes st x
  | r => r
  end.
