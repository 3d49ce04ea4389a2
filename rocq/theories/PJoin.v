(** C226: layers and plots drawn again. *)
From Coq Require Import Reals List Arith Lia Lra Bool String.
From Verif Require Import MJoin.
Import ListNotations.
Notation length := List.length.

(** * Specification *)
(** [r] is [l] with each item repeated any number of times *)
Inductive repeats {X} : list X -> list X -> Prop :=
  | rep_nil : repeats [] []
  | rep_new : forall x l r, repeats l r -> repeats (x :: l) (x :: r)
  | rep_again : forall x l r, repeats (x :: l) r -> repeats (x :: l) (x :: r).
(** no item is followed by itself *)
Fixpoint changes {X} (l : list X) : Prop := match l with x :: ((y :: _) as t) => x <> y /\ changes t | _ => True end.

(** the data handed over for one layer, in order; [None]: the default group *)
Definition group_of (k : kind) (s : option string) : string :=
  match s, k with Some s, _ => s | None, Planes => "g.planes"%string | None, Ellipses => "g.poles"%string end.
Fixpoint data_for {A} (k : kind) (g : string) (cs : list (kind * option string * list A)) : list (list A) :=
  match cs with
  | [] => []
  | (k', s, d) :: cs => if kind_eqb k k' && String.eqb g (group_of k' s) then d :: data_for k g cs else data_for k g cs
  end.

(** * Lemmas *)
Lemma kind_eqb_eq : forall a b, kind_eqb a b = true <-> a = b.
Proof. intros [] []; cbn; split; congruence. Qed.
Definition join {A} (shown data : list A) : list A := shown ++ entering shown data.
Lemma join_nth : forall A (s d : list A) i, nth_error (join s d) i = if i <? length s then nth_error s i else nth_error d i.
Proof.
  intros A s d i. unfold join, entering. destruct (Nat.ltb_spec i (length s)) as [h|h].
  - now rewrite nth_error_app1.
  - rewrite nth_error_app2 by auto. revert i d h. induction s as [|x s IH]; intros i d h.
    + cbn. now rewrite Nat.sub_0_r.
    + destruct i as [|i]; [cbn in h; lia|]. cbn [length Nat.sub]. destruct d as [|y d]; cbn [skipn].
      * cbn. now destruct (i - length s)%nat.
      * rewrite IH by (cbn in h; lia). reflexivity.
Qed.
Lemma join_length : forall A (s d : list A), length (join s d) = Nat.max (length s) (length d).
Proof. intros A s d. unfold join, entering. rewrite app_length, skipn_length. lia. Qed.
Lemma draw_all_layer : forall A (cs : list (kind * option string * list A)) s k g,
  draw_all s cs k g = fold_left join (data_for k g cs) (s k g).
Proof.
  intros A cs. induction cs as [|((k', sel), d) cs IH]; intros s k g; [reflexivity|].
  unfold draw_all. cbn [fold_left]. fold (@draw_all A). cbn [draw_layer].
  match goal with |- context[fold_left ?F cs ?S] => change (fold_left F cs S) with (draw_all S cs) end. rewrite IH.
  cbn [data_for]. replace (match sel with Some sel0 => sel0 | None => _ end) with (group_of k' sel) by (destruct sel, k'; reflexivity).
  destruct (kind_eqb k k') eqn:K; cbn [andb]; [|reflexivity].
  destruct (String.eqb_spec g (group_of k' sel)) as [G|G]; [|reflexivity].
  apply kind_eqb_eq in K. subst. reflexivity.
Qed.
Lemma fold_join : forall A (ds : list (list A)) s,
  length (fold_left join ds s) = fold_left Nat.max (map (@length A) ds) (length s) /\
  (forall i, i < length s -> nth_error (fold_left join ds s) i = nth_error s i)%nat /\
  (forall i before d after, ds = before ++ d :: after -> length s <= i -> (forall b, In b before -> length b <= i) -> i < length d ->
    nth_error (fold_left join ds s) i = nth_error d i)%nat.
Proof.
  intros A ds. induction ds as [|d ds IH]; intros s; cbn [fold_left map].
  - split; auto. split; auto. intros i b d a H. destruct b; discriminate.
  - destruct (IH (join s d)) as (L & S & D). rewrite join_length in *. split; auto. split.
    + intros i I. rewrite S by lia. rewrite join_nth. now destruct (Nat.ltb_spec i (length s)); [|lia].
    + intros i b d' a H LI LB LD. destruct b as [|b0 b]; cbn in H; injection H as -> H.
      * rewrite S by lia. rewrite join_nth. now destruct (Nat.ltb_spec i (length s)); [lia|].
      * apply (D i b d' a H); auto. { specialize (LB b0 ltac:(now left)). lia. }
        intros x X. apply LB. now right.
Qed.

(** * C226 *)
(** After any calls on a net, a layer holds as many elements as its longest data, each drawn
    from the first data that had one at its place. *)
Theorem C226_layers : forall A (cs : list (kind * option string * list A)) k g,
  let shown := draw_all no_layers cs k g in let ds := data_for k g cs in
  (forall d, In d ds -> length d <= length shown)%nat /\ (shown = [] \/ exists d, In d ds /\ length d = length shown) /\
  (forall i before d after, ds = before ++ d :: after -> (forall b, In b before -> length b <= i)%nat -> (i < length d)%nat ->
     nth_error shown i = nth_error d i).
Proof.
  intros A cs k g shown ds. unfold shown. rewrite draw_all_layer. fold ds. cbn [no_layers].
  destruct (fold_join A ds []) as (L & _ & D). cbn [length] in L.
  assert (M : forall l m, (m <= fold_left Nat.max l m /\ (forall x, In x l -> x <= fold_left Nat.max l m) /\
                     (fold_left Nat.max l m = m \/ In (fold_left Nat.max l m) l))%nat).
  { induction l as [|x l IH]; intros m; cbn [fold_left]. { split; [lia|]. split; [intros ? []|auto]. }
    destruct (IH (Nat.max m x)) as (a & b & c). split; [lia|]. split.
    - intros y [->|I]; [lia|auto].
    - destruct c as [c|c]; [|right; now right]. destruct (Nat.max_spec m x) as [[? E]|[? E]]; rewrite c, E; [right; now left|auto]. }
  destruct (M (map (@length A) ds) 0%nat) as (_ & a & b). split; [|split].
  - intros d I. unfold no_layers. rewrite L. apply a. now apply in_map.
  - destruct b as [b|b].
    + left. apply length_zero_iff_nil. unfold no_layers. rewrite L. exact b.
    + right. apply in_map_iff in b. destruct b as (d & E & I). exists d. split; auto. unfold no_layers. rewrite L. exact E.
  - intros i b0 d af H LB LD. apply (D i b0 d af H); auto. cbn. lia.
Qed.
(** One more call shows exactly its data if and only if what was there is the beginning of
    it; the selection handed back, which the caller colours, is only what is beyond that. *)
Theorem C226_again : forall A (s : layers (A := A)) k sel d,
  draw_layer false s k sel d = None /\
  exists s' new, draw_layer true s k sel d = Some (s', new) /\
    (s' k (group_of k sel) = d <-> exists more, d = s k (group_of k sel) ++ more) /\
    s' k (group_of k sel) = s k (group_of k sel) ++ new /\
    length new = (length d - length (s k (group_of k sel)))%nat /\
    (forall k' g, (k', g) <> (k, group_of k sel) -> s' k' g = s k' g).
Proof.
  intros A s k sel d. split; [reflexivity|]. cbn [draw_layer].
  replace (match sel with Some sel0 => sel0 | None => _ end) with (group_of k sel) by (destruct sel, k; reflexivity).
  set (g := group_of k sel). do 2 eexists. split; [reflexivity|]. cbn beta.
  assert (E : kind_eqb k k && String.eqb g g = true) by (rewrite String.eqb_refl; destruct k; reflexivity). rewrite E.
  split; [|split; [reflexivity|split]].
  - fold (join (s k g) d). split.
    + intros H. exists (entering (s k g) d). rewrite <- H at 1. reflexivity.
    + intros (m & ->). unfold join, entering. rewrite skipn_app, skipn_all, Nat.sub_diag. reflexivity.
  - unfold entering. apply skipn_length.
  - intros k' g' N. destruct (kind_eqb k' k) eqn:K; cbn [andb]; auto. destruct (String.eqb_spec g' g) as [G|G]; auto.
    apply kind_eqb_eq in K. subst. congruence.
Qed.

Lemma renders_cons : forall P D same draw s (p : P) ps,
  renders P D same draw s (p :: ps) = renders P D same draw (effect P D same draw s p) ps.
Proof. reflexivity. Qed.
Lemma effect_some : forall P D same draw q svg (p : P),
  effect P D same draw (mkComp P D (Some q) svg) p = if same q p then mkComp P D (Some q) svg else mkComp P D (Some p) (draw p svg).
Proof. reflexivity. Qed.
Lemma render_stack : forall A (content : nat -> list A) ps p0 pre, exists l,
  c_svg nat (list A) (renders nat (list A) Nat.eqb (fun p svg => svg ++ [content p]) (mkComp nat (list A) (Some p0) pre) ps) =
    pre ++ map content l /\ repeats (p0 :: l) (p0 :: ps) /\ changes (p0 :: l).
Proof.
  intros A content ps. induction ps as [|p ps IH]; intros p0 pre.
  - exists []. cbn. rewrite app_nil_r. repeat split. apply rep_new, rep_nil.
  - rewrite renders_cons, effect_some. destruct (Nat.eqb_spec p0 p) as [->|N].
    + destruct (IH p pre) as (l & S & R & C). exists l. split; auto. split; auto. now apply rep_again.
    + destruct (IH p (pre ++ [content p])) as (l & S & R & C). exists (p :: l). cbn [map]. split; [|split].
      * rewrite S, <- app_assoc. reflexivity.
      * apply rep_new. exact R.
      * cbn [changes]. split; auto.
Qed.
(** The rectangular stereonet draws a group for each array of data it is given after
    another one, and keeps them all. *)
Theorem C226_rectangular : forall A (content : nat -> list A) ps, exists l,
  rectangular content ps = map content l /\ repeats l ps /\ changes l.
Proof.
  intros A content [|p ps]. { exists []. repeat split. constructor. }
  destruct (render_stack A content ps p [content p]) as (l & S & R & C). exists (p :: l).
  unfold rectangular. rewrite renders_cons. split; [exact S|]. auto.
Qed.
Lemma repeats_last : forall X (l r : list X) x, repeats l r -> last l x = last r x.
Proof.
  intros X l r x H. induction H as [|y l r H IH|y l r H IH]; auto.
  - inversion H; subst; cbn [last] in *; auto.
  - rewrite IH. inversion H; subst; reflexivity.
Qed.
Lemma repeats_in : forall X (l r : list X), repeats l r -> forall x, In x l <-> In x r.
Proof. intros X l r H. induction H as [|y l r H IH|y l r H IH]; intros x; cbn [In]; [tauto|rewrite IH; tauto|]. rewrite <- IH. cbn [In]. tauto. Qed.
Lemma last_default : forall X (l : list X) x y, l <> [] -> last l x = last l y.
Proof.
  intros X l x y. induction l as [|z l IH]; intros N; [congruence|]. destruct l as [|w l]; auto.
  change (last (w :: l) x = last (w :: l) y). apply IH. discriminate.
Qed.
(** The last one is that of the current data; there is one drawing exactly when the array
    never changed, not even to one with the same items. *)
Theorem C226_current : forall A (content : nat -> list A) p ps,
  last (rectangular content (p :: ps)) [] = content (last (p :: ps) p) /\
  (length (rectangular content (p :: ps)) = 1%nat <-> forall q, In q ps -> q = p).
Proof.
  intros A content p ps. destruct (C226_rectangular A content (p :: ps)) as (l & E & R & C). rewrite E.
  assert (H : exists t, l = p :: t) by (inversion R; subst; eauto). destruct H as (t & ->). split.
  - rewrite <- (repeats_last _ _ _ p R). clear. revert p. induction t as [|q t IH]; intros p; [reflexivity|].
    change (last (map content (p :: q :: t)) []) with (last (map content (q :: t)) []). rewrite (IH q).
    change (last (p :: q :: t) p) with (last (q :: t) p). now rewrite (last_default _ (q :: t) p q) by discriminate.
  - rewrite map_length. split.
    + intros L q I. destruct t; [|discriminate L]. assert (J : In q [p]) by (apply (repeats_in _ _ _ R); now right).
      destruct J as [->|[]]; auto.
    + intros H. destruct t as [|q t]; auto. exfalso. destruct C as (N & _). apply N.
      assert (J : In q (p :: ps)) by (apply (repeats_in _ _ _ R); right; now left). destruct J as [->|J]; auto. symmetry. auto.
Qed.
(** The clipped stereonet always shows one drawing, of the last data and clip angle. *)
Theorem C226_vertical : forall A (content : nat -> list A) ps p c,
  vertical content (ps ++ [(p, c)]) = [(content p, match c with Some c => c | None => 15%R end)].
Proof.
  intros A content ps p c. unfold vertical. rewrite map_app. cbn [map fst snd]. fold (clip_of c).
  set (qs := map _ ps). set (same := fun a b => _). set (draw := fun q _ => _).
  assert (K : forall qs s, (c_deps _ _ s = None \/ exists q, c_deps _ _ s = Some q /\ c_svg _ _ s = [(content (fst q), snd q)]) ->
    let s' := renders (nat * R) (list A * R) same draw s qs in
    c_deps _ _ s' = None \/ exists q, c_deps _ _ s' = Some q /\ c_svg _ _ s' = [(content (fst q), snd q)]).
  { induction qs0 as [|q qs0 IH]; intros s H; [exact H|]. cbv zeta. rewrite renders_cons. apply IH. right.
    unfold effect. destruct H as [->|(q0 & E & S)].
    - exists q. split; reflexivity.
    - rewrite E. destruct (same q0 q) eqn:SM; [exists q0; auto|exists q; split; reflexivity]. }
  specialize (K qs (mounted0 _ _) (or_introl eq_refl)). cbv zeta in K.
  replace (renders (nat * R) (list A * R) same draw (mounted0 _ _) (qs ++ [(p, clip_of c)]))
    with (effect (nat * R) (list A * R) same draw (renders (nat * R) (list A * R) same draw (mounted0 _ _) qs) (p, clip_of c))
    by (unfold renders; now rewrite fold_left_app).
  set (s := renders _ _ _ _ _ qs) in *. unfold effect. destruct K as [->|(q & E & S)]; [reflexivity|]. rewrite E.
  destruct (same q (p, clip_of c)) eqn:SM; [|reflexivity]. rewrite S. unfold same in SM. cbn [fst snd] in SM.
  apply andb_prop in SM. destruct SM as (A1 & A2). apply Nat.eqb_eq in A1. destruct (Req_EM_T _ _) as [e|]; [|discriminate].
  destruct q as [q r]. cbn in *. now subst.
Qed.
Example C226_ex : let content := fun n => match n with O => [1] | 1 => [2; 3] | _ => [] end%nat in
  rectangular content [0; 0; 1; 0]%nat = [[1]; [2; 3]; [1]]%nat /\
  vertical content [(0%nat, None); (1%nat, Some 40%R)] = [([2; 3]%nat, 40%R)] /\
  draw_all no_layers [(Planes, None, [1; 2]); (Planes, None, [5; 6; 7]); (Ellipses, None, [9]); (Planes, None, [8])]%nat Planes "g.planes"%string = [1; 2; 7]%nat.
Proof. split; [reflexivity|]. split; [|reflexivity].
  exact (C226_vertical nat (fun n => match n with O => [1] | 1 => [2; 3] | _ => [] end%nat) [(0%nat, None)] 1%nat (Some 40%R)). Qed.

Print Assumptions C226_layers.
Print Assumptions C226_again.
Print Assumptions C226_rectangular.
Print Assumptions C226_current.
Print Assumptions C226_vertical.
