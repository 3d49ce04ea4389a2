(** Properties C84-C86, C112, C113: extraction of coordinates from rasters. *)
From Coq Require Import Reals Lra Lia List Arith ZArith Psatz.
From Verif Require Import RVec MDem.
Import ListNotations.
Open Scope R_scope.

(** * C84 *)
(** [selects P l l']: l' is l with the elements failing P left out *)
Inductive selects {A} (P : A -> Prop) : list A -> list A -> Prop :=
  | sel_nil : selects P [] []
  | sel_keep : forall a l l', P a -> selects P l l' -> selects P (a :: l) (a :: l')
  | sel_drop : forall a l l', ~ P a -> selects P l l' -> selects P (a :: l) l'.
Theorem C84_clean : forall coords : list frow, selects (fun r : frow => ~ In None r) coords (clean_coordinates coords) /\
  snd (clean_message coords) = (let k := (length coords - length (clean_coordinates coords))%nat in if (k =? 0)%nat then None else Some k) /\
  (In None (concat coords) <-> snd (clean_message coords) <> None).
Proof.
  intros coords.
  assert (S : selects (fun r : frow => ~ In None r) coords (clean_coordinates coords)).
  { induction coords as [|r l IH]; [constructor|]. unfold clean_coordinates. cbn [filter].
    destruct (existsb isnan r) eqn:E; cbn [negb].
    - apply sel_drop; auto. intros N. apply N. apply existsb_exists in E. destruct E as ([x|] & I & X); [discriminate|auto].
    - apply sel_keep; auto. intros N. rewrite (proj2 (existsb_exists isnan r)) in E; [discriminate|]. exists None. auto. }
  assert (L : (length (clean_coordinates coords) <= length coords)%nat).
  { unfold clean_coordinates. clear. induction coords; cbn; auto. destruct (negb _); cbn; lia. }
  assert (M : snd (clean_message coords) = (let k := (length coords - length (clean_coordinates coords))%nat in if (k =? 0)%nat then None else Some k)).
  { unfold clean_message. cbv zeta. cbn [snd]. destruct (Nat.ltb_spec (length (clean_coordinates coords)) (length coords)) as [l|l];
      destruct (Nat.eqb_spec (length coords - length (clean_coordinates coords)) 0); auto; lia. }
  split; auto. split; auto. rewrite M. cbv zeta.
  assert (Q : forall l l' : list frow, selects (fun r : frow => ~ In None r) l l' -> (length l' <= length l)%nat /\ (In None (concat l) <-> (length l' < length l)%nat)).
  { clear. intros l l' H. induction H as [|a l l' P H [IH1 IH2]|a l l' P H [IH1 IH2]]; cbn [length concat].
    - split; [lia|]. split; [intros []|lia].
    - split; [lia|]. rewrite in_app_iff, IH2. split; [intros [X|X]; [contradiction|lia]|intros; right; lia].
    - split; [lia|]. split; [lia|]. intros _. apply in_or_app. left.
      destruct (in_dec (fun x y : option R => ltac:(decide equality; apply Req_EM_T)) None a); [auto|contradiction]. }
  destruct (Q _ _ S) as [_ Q2]. rewrite Q2. destruct (Nat.eqb_spec (length coords - length (clean_coordinates coords)) 0); split; intros; try lia; congruence.
Qed.
Example C84_ex : clean_coordinates [[Some 1; Some 2; None]; [Some 3; Some 4; Some 5]; [None; Some 0; Some 1]] = [[Some 3; Some 4; Some 5]].
Proof. reflexivity. Qed.

(** * C85 *)
Lemma trim_front_split : forall x, exists k, x = repeat 0%nat k ++ trim_front x /\
  (trim_front x = [] \/ exists a t, trim_front x = S a :: t).
Proof.
  induction x as [|a x IH]; [exists 0%nat; cbn; auto|]. destruct a.
  - destruct IH as (k & E & D). exists (S k). cbn [trim_front repeat app]. rewrite <- E. auto.
  - exists 0%nat. cbn. eauto.
Qed.
Lemma rev_repeat0 : forall k, rev (repeat 0%nat k) = repeat 0%nat k.
Proof.
  induction k; auto. cbn [repeat rev]. rewrite IHk. clear. induction k; auto. cbn. now rewrite IHk.
Qed.
Lemma trim_back_split : forall x, exists k, x = trim_back x ++ repeat 0%nat k /\
  (trim_back x = [] \/ exists a t, trim_back x = t ++ [S a]).
Proof.
  intros x. destruct (trim_front_split (rev x)) as (k & E & D). exists k. unfold trim_back. split.
  - rewrite <- (rev_involutive x) at 1. rewrite E at 1. now rewrite rev_app_distr, rev_repeat0.
  - destruct D as [D|(a & t & D)]; rewrite D; [now left|right]. exists a, (rev t). reflexivity.
Qed.
Lemma axis_data_spec : forall x o s, axis_data x = (o, s) ->
  (o + s <= length x)%nat /\
  (forall i, nth i x 0%nat <> 0%nat -> (o <= i < o + s)%nat) /\
  ((exists i, nth i x 0%nat <> 0%nat) -> (0 < s)%nat /\ nth o x 0%nat <> 0%nat /\ nth (o + s - 1) x 0%nat <> 0%nat) /\
  ((forall i, nth i x 0%nat = 0%nat) -> s = 0%nat /\ o = length x).
Proof.
  intros x o s H. unfold axis_data in H. injection H as Ho Hs.
  destruct (trim_front_split x) as (k & E & D). destruct (trim_back_split (trim_front x)) as (l & E' & D').
  set (f := trim_front x) in *. set (b := trim_back f) in *.
  assert (LF : length x = (k + length f)%nat) by (rewrite E, app_length, repeat_length; reflexivity).
  assert (LB : length f = (s + l)%nat) by (rewrite E', app_length, repeat_length, Hs; reflexivity).
  assert (OK : k = o) by lia. subst k. clear Ho.
  assert (R0 : forall n i, nth i (repeat 0%nat n) 0%nat = 0%nat).
  { clear. induction n; destruct i; cbn; auto. }
  split; [lia|]. split; [|split].
  - intros i NZ. rewrite E in NZ. destruct (Nat.lt_ge_cases i o) as [L|L].
    + rewrite app_nth1 in NZ by (rewrite repeat_length; auto). now rewrite R0 in NZ.
    + rewrite app_nth2, repeat_length in NZ by (rewrite repeat_length; auto). rewrite E' in NZ.
      destruct (Nat.lt_ge_cases (i - o) s) as [L'|L']; [lia|].
      rewrite app_nth2 in NZ by (rewrite Hs; auto). now rewrite R0 in NZ.
  - intros (i & NZ).
    assert (B : b <> []).
    { intros B. rewrite E in NZ. destruct (Nat.lt_ge_cases i o) as [L|L].
      - rewrite app_nth1 in NZ by (rewrite repeat_length; auto). now rewrite R0 in NZ.
      - rewrite app_nth2, repeat_length in NZ by (rewrite repeat_length; auto). rewrite E', B in NZ. cbn [app] in NZ. now rewrite R0 in NZ. }
    destruct D' as [D'|(a & t & D')]; [contradiction|].
    destruct D as [D|(a' & t' & D)]; [exfalso; rewrite D in E'; destruct b; [contradiction|discriminate]|].
    assert (SP : s = S (length t)) by (rewrite <- Hs, D', app_length; cbn; lia).
    split; [lia|]. split.
    + rewrite E, app_nth2, repeat_length by (rewrite repeat_length; lia). rewrite Nat.sub_diag, D. discriminate.
    + rewrite E, app_nth2, repeat_length by (rewrite repeat_length; lia). replace (o + s - 1 - o)%nat with (length t) by lia.
      rewrite E', D', <- app_assoc, app_nth2, Nat.sub_diag by lia. discriminate.
  - intros Z. destruct D' as [D'|(a & t & D')].
    + destruct D as [D|(a' & t' & D)].
      * rewrite D in LF, LB. cbn in LF, LB. split; lia.
      * exfalso. specialize (Z o). rewrite E, app_nth2, repeat_length in Z by (rewrite repeat_length; lia). rewrite Nat.sub_diag, D in Z. discriminate.
    + exfalso. specialize (Z (o + length t)%nat). rewrite E, app_nth2, repeat_length in Z by (rewrite repeat_length; lia).
      replace (o + length t - o)%nat with (length t) in Z by lia. rewrite E', D', <- app_assoc, app_nth2, Nat.sub_diag in Z by lia. discriminate.
Qed.
Lemma count_pos : forall n f, count n f <> 0%nat <-> exists i, (i < n)%nat /\ f i = true.
Proof.
  induction n; intros f; cbn [count].
  - split; [contradiction|]. intros (i & I & _). lia.
  - destruct (f n) eqn:E.
    + split; [|lia]. intros _. exists n. auto.
    + rewrite Nat.add_0_l, IHn. split; intros (i & I & F).
      * exists i. auto with arith.
      * exists i. split; auto. destruct (Nat.eq_dec i n); [congruence|lia].
Qed.
Lemma sum0_nth : forall h w m j, nth j (sum0 h w m) 0%nat <> 0%nat <-> (j < w)%nat /\ exists i, (i < h)%nat /\ m i j = true.
Proof.
  intros h w m j. unfold sum0. destruct (Nat.lt_ge_cases j w) as [L|L].
  - rewrite (nth_indep _ 0%nat (count h (fun i => m i 0%nat))) by (rewrite map_length, seq_length; auto).
    rewrite (map_nth (fun j => count h (fun i => m i j))). rewrite seq_nth by auto. cbn [Nat.add]. rewrite count_pos. tauto.
  - rewrite nth_overflow by (rewrite map_length, seq_length; auto). split; [contradiction|]. lia.
Qed.
Lemma sum1_nth : forall h w m i, nth i (sum1 h w m) 0%nat <> 0%nat <-> (i < h)%nat /\ exists j, (j < w)%nat /\ m i j = true.
Proof.
  intros h w m i. unfold sum1. destruct (Nat.lt_ge_cases i h) as [L|L].
  - rewrite (nth_indep _ 0%nat (count w (fun j => m 0%nat j))) by (rewrite map_length, seq_length; auto).
    rewrite (map_nth (fun i => count w (fun j => m i j))). rewrite seq_nth by auto. cbn [Nat.add]. rewrite count_pos. tauto.
  - rewrite nth_overflow by (rewrite map_length, seq_length; auto). split; [contradiction|]. lia.
Qed.
Theorem C85_bounding_box : forall h w m yo xo ys xs a, offset_mask h w m = ((yo, xo), (ys, xs), a) ->
  (yo + ys <= h)%nat /\ (xo + xs <= w)%nat /\
  (forall i j, (i < ys)%nat -> (j < xs)%nat -> a i j = m (yo + i)%nat (xo + j)%nat) /\
  (forall i j, (i < h)%nat -> (j < w)%nat -> m i j = true -> (yo <= i < yo + ys)%nat /\ (xo <= j < xo + xs)%nat) /\
  ((exists i j, (i < h)%nat /\ (j < w)%nat /\ m i j = true) -> (0 < ys)%nat /\ (0 < xs)%nat /\
    (exists j, (j < xs)%nat /\ a 0%nat j = true) /\ (exists j, (j < xs)%nat /\ a (ys - 1)%nat j = true) /\
    (exists i, (i < ys)%nat /\ a i 0%nat = true) /\ (exists i, (i < ys)%nat /\ a i (xs - 1)%nat = true)) /\
  ((forall i j, (i < h)%nat -> (j < w)%nat -> m i j = false) -> ys = 0%nat /\ xs = 0%nat /\ yo = h /\ xo = w).
Proof.
  intros h w m yo xo ys xs a H. unfold offset_mask in H.
  destruct (axis_data (sum0 h w m)) as [xo' xs'] eqn:EX. destruct (axis_data (sum1 h w m)) as [yo' ys'] eqn:EY.
  injection H as -> -> -> -> <-.
  destruct (axis_data_spec _ _ _ EX) as (X1 & X2 & X3 & X4). destruct (axis_data_spec _ _ _ EY) as (Y1 & Y2 & Y3 & Y4).
  assert (LX : length (sum0 h w m) = w) by (unfold sum0; now rewrite map_length, seq_length).
  assert (LY : length (sum1 h w m) = h) by (unfold sum1; now rewrite map_length, seq_length).
  rewrite LX in *. rewrite LY in *.
  assert (IN : forall i j, (i < h)%nat -> (j < w)%nat -> m i j = true -> (yo <= i < yo + ys)%nat /\ (xo <= j < xo + xs)%nat).
  { intros i j I J M. split; [apply Y2, sum1_nth; eauto|apply X2, sum0_nth; eauto]. }
  split; auto. split; auto. split; auto. split; auto. split.
  - intros (i & j & I & J & M).
    destruct Y3 as (YP & YA & YB); [exists i; apply sum1_nth; eauto|]. destruct X3 as (XP & XA & XB); [exists j; apply sum0_nth; eauto|].
    apply sum1_nth in YA, YB. apply sum0_nth in XA, XB.
    destruct YA as (A1 & ja & A2 & A3). destruct YB as (B1 & jb & B2 & B3). destruct XA as (C1 & ic & C2 & C3). destruct XB as (D1 & id & D2 & D3).
    pose proof (IN _ _ A1 A2 A3). pose proof (IN _ _ B1 B2 B3). pose proof (IN _ _ C2 C1 C3). pose proof (IN _ _ D2 D1 D3).
    split; auto. split; auto. split; [|split; [|split]].
    + exists (ja - xo)%nat. split; [lia|]. rewrite Nat.add_0_r. replace (xo + (ja - xo))%nat with ja by lia. auto.
    + exists (jb - xo)%nat. split; [lia|]. replace (xo + (jb - xo))%nat with jb by lia. replace (yo + (ys - 1))%nat with (yo + ys - 1)%nat by lia. auto.
    + exists (ic - yo)%nat. split; [lia|]. rewrite Nat.add_0_r. replace (yo + (ic - yo))%nat with ic by lia. auto.
    + exists (id - yo)%nat. split; [lia|]. replace (yo + (id - yo))%nat with id by lia. replace (xo + (xs - 1))%nat with (xo + xs - 1)%nat by lia. auto.
  - intros Z. destruct X4 as [A B].
    { intros j. destruct (Nat.eq_dec (nth j (sum0 h w m) 0%nat) 0) as [e|n]; auto. apply sum0_nth in n. destruct n as (J & i & I & M). rewrite Z in M by auto. discriminate. }
    destruct Y4 as [C D].
    { intros i. destruct (Nat.eq_dec (nth i (sum1 h w m) 0%nat) 0) as [e|n]; auto. apply sum1_nth in n. destruct n as (I & j & J & M). rewrite Z in M by auto. discriminate. }
    auto.
Qed.
Example C85_ex : fst (offset_mask 4 5 (fun i j => ((i =? 1) && (j =? 3)) || ((i =? 2) && (j =? 2)))%nat%bool) = ((1, 2), (2, 2))%nat.
Proof. reflexivity. Qed.

(** * C86 *)
(** the centre of the pixel in row i and column j *)
Definition pixel_centre (t : affine) (i j : nat) : R * R := aff_apply t (INR j + 1 / 2) (INR i + 1 / 2).
(** pixels of the whole raster, row by row *)
Definition all_pixels (h w : nat) : list (nat * nat) := flat_map (fun i => map (fun j => (i, j)) (seq 0 w)) (seq 0 h).
Lemma flat_map_app' : forall {A B} (f : A -> list B) l l', flat_map f (l ++ l') = flat_map f l ++ flat_map f l'.
Proof. induction l; intros; cbn; auto. rewrite IHl. apply app_assoc. Qed.
Lemma flat_map_nil : forall {A B} (f : A -> list B) l, (forall a, In a l -> f a = []) -> flat_map f l = [].
Proof. induction l; intros H; cbn; auto. rewrite (H a), IHl by (auto with datatypes). reflexivity. Qed.
Lemma flat_map_ext' : forall {A B} (f g : A -> list B) l, (forall a, In a l -> f a = g a) -> flat_map f l = flat_map g l.
Proof. induction l; intros H; cbn; auto. rewrite (H a), IHl by (auto with datatypes). reflexivity. Qed.
Lemma flat_map_flat_map : forall {A B C} (f : B -> list C) (g : A -> list B) l, flat_map f (flat_map g l) = flat_map (fun a => flat_map f (g a)) l.
Proof. induction l; cbn; auto. rewrite flat_map_app'. congruence. Qed.
Lemma flat_map_map' : forall {A B C} (f : B -> list C) (g : A -> B) l, flat_map f (map g l) = flat_map (fun a => f (g a)) l.
Proof. induction l; cbn; auto. congruence. Qed.
Lemma map_flat_map : forall {A B C} (f : B -> C) (g : A -> list B) l, map f (flat_map g l) = flat_map (fun a => map f (g a)) l.
Proof. induction l; cbn; auto. rewrite map_app. congruence. Qed.
(** only a sub-range contributes *)
Lemma flat_map_range : forall {B} (f : nat -> list B) n o s, (o + s <= n)%nat -> (forall i, (i < n)%nat -> ~ (o <= i < o + s)%nat -> f i = []) ->
  flat_map f (seq 0 n) = flat_map f (seq o s).
Proof.
  intros B f n o s L H. replace n with (o + (s + (n - o - s)))%nat at 1 by lia. rewrite !seq_app, !flat_map_app'. cbn [Nat.add].
  rewrite (flat_map_nil f (seq 0 o)) by (intros a I; apply in_seq in I; apply H; lia).
  rewrite (flat_map_nil f (seq (o + s) _)) by (intros a I; apply in_seq in I; apply H; lia). now rewrite app_nil_r.
Qed.
Lemma seq_shift' : forall {B} (f : nat -> list B) o s, flat_map f (seq o s) = flat_map (fun i => f (o + i)%nat) (seq 0 s).
Proof.
  intros B f o s. revert f o. induction s; intros f o; auto. cbn [seq flat_map]. rewrite (IHs f), (IHs _ 1%nat), Nat.add_0_r. f_equal.
  apply flat_map_ext'. intros a _. f_equal. lia.
Qed.
Lemma combine_app' : forall {A B} (l1 l1' : list A) (l2 l2' : list B), length l1 = length l2 -> combine (l1 ++ l1') (l2 ++ l2') = combine l1 l2 ++ combine l1' l2'.
Proof. induction l1; destruct l2; intros; cbn in *; try discriminate; auto. f_equal. auto. Qed.
Lemma combine_flat_map : forall {A B C} (f : A -> list B) (g : A -> list C) l, (forall a, length (f a) = length (g a)) ->
  combine (flat_map f l) (flat_map g l) = flat_map (fun a => combine (f a) (g a)) l.
Proof. induction l; intros H; cbn; auto. rewrite combine_app' by auto. rewrite IHl; auto. Qed.
Lemma combine_map2 : forall {A B C} (f : A -> B) (g : A -> C) l, combine (map f l) (map g l) = map (fun a => (f a, g a)) l.
Proof. induction l; cbn; auto. congruence. Qed.
Lemma map_seq_shift : forall {B} (f : nat -> B) o s, map f (seq o s) = map (fun i => f (o + i)%nat) (seq 0 s).
Proof.
  intros B f o s. revert f o. induction s; intros f o; auto. cbn [seq map]. rewrite (IHs f), (IHs _ 1%nat), Nat.add_0_r. f_equal.
  apply map_ext. intros a. f_equal. lia.
Qed.
(** one row per pixel that is inside and valid, at its centre, in the raster's own order *)
Theorem C86_extract : forall h w inside read t,
  extract_area h w inside read t =
  flat_map (fun '(i, j) => if inside i j then match read i j with Masked => [] | Value v => [(pixel_centre t i j, v)] end else [])
    (all_pixels h w).
Proof.
  intros h w inside read t. unfold extract_area. destruct (offset_mask h w inside) as [[[yo xo] [ys xs]] msk] eqn:E.
  destruct (C85_bounding_box _ _ _ _ _ _ _ _ E) as (LY & LX & SL & IN & _).
  assert (MS : forall i j, msk i j = inside (yo + i)%nat (xo + j)%nat).
  { intros i j. unfold offset_mask in E. destruct (axis_data (sum0 h w inside)), (axis_data (sum1 h w inside)). injection E as <- <- <- <- <-. reflexivity. }
  cbv zeta. unfold meshgrid. rewrite (seq_shift' (fun r => map (fun c => (c, r)) (seq xo xs)) yo ys).
  rewrite combine_flat_map by (intros; rewrite !map_length, !seq_length; reflexivity).
  rewrite flat_map_flat_map, map_flat_map. unfold all_pixels. rewrite flat_map_flat_map.
  rewrite (flat_map_range (fun i => flat_map _ (map (fun j => (i, j)) (seq 0 w))) h yo ys); auto.
  2:{ intros i I N. rewrite flat_map_map'. apply flat_map_nil. intros j J. apply in_seq in J. destruct (inside i j) eqn:EI; auto. exfalso. apply N. apply (IN i j); auto. lia. }
  rewrite (seq_shift' _ yo ys). apply flat_map_ext'. intros i I. apply in_seq in I.
  rewrite flat_map_map'. rewrite (flat_map_range _ w xo xs); auto.
  2:{ intros j J N. destruct (inside (yo + i)%nat j) eqn:EI; auto. exfalso. apply N. apply (IN (yo + i)%nat j); auto. lia. }
  rewrite (seq_shift' _ xo xs). rewrite (map_seq_shift _ xo xs), combine_map2, flat_map_map', map_flat_map. apply flat_map_ext'. intros j J.
  rewrite MS. destruct (inside (yo + i)%nat (xo + j)%nat); auto. destruct (read (yo + i)%nat (xo + j)%nat) as [|v]; auto.
  cbn [map]. unfold pixel_centre, aff_apply, aff_mul, aff_translation. cbn [fa fb fc fd fe ff]. do 2 f_equal. f_equal; ring.
Qed.
Lemma in_all_pixels : forall h w i j, In (i, j) (all_pixels h w) <-> (i < h)%nat /\ (j < w)%nat.
Proof.
  intros h w i j. unfold all_pixels. rewrite in_flat_map. split.
  - intros (x & X & H). apply in_map_iff in H. destruct H as (y & E & Y). injection E as <- <-. apply in_seq in X, Y. lia.
  - intros [I J]. exists i. split; [apply in_seq; lia|]. apply in_map_iff. exists j. split; auto. apply in_seq; lia.
Qed.
Lemma NoDup_app' : forall {A} (l l' : list A), NoDup l -> NoDup l' -> (forall a, In a l -> In a l' -> False) -> NoDup (l ++ l').
Proof.
  induction l; intros l' H H' D; cbn; auto. inversion H; subst. constructor.
  - intros X. apply in_app_or in X. destruct X as [X|X]; [contradiction|]. apply (D a); cbn; auto.
  - apply IHl; auto. intros x X Y. apply (D x); cbn; auto.
Qed.
(** a transform that can be inverted puts different pixels at different places *)
Theorem C86_no_duplicates : forall h w inside read t, fa t * fe t - fb t * fd t <> 0 ->
  NoDup (map fst (extract_area h w inside read t)).
Proof.
  intros h w inside read t D. rewrite C86_extract.
  assert (INJ : forall i j i' j', pixel_centre t i j = pixel_centre t i' j' -> i = i' /\ j = j').
  { intros i j i' j' E. unfold pixel_centre, aff_apply in E. injection E as E1 E2.
    set (dx := INR j - INR j'). set (dy := INR i - INR i').
    assert (F1 : fa t * dx + fb t * dy = 0) by (unfold dx, dy; lra). assert (F2 : fd t * dx + fe t * dy = 0) by (unfold dx, dy; lra).
    assert (X : (fa t * fe t - fb t * fd t) * dx = 0).
    { transitivity (fe t * (fa t * dx + fb t * dy) - fb t * (fd t * dx + fe t * dy)); [ring|]. rewrite F1, F2. ring. }
    assert (Y : (fa t * fe t - fb t * fd t) * dy = 0).
    { transitivity (fa t * (fd t * dx + fe t * dy) - fd t * (fa t * dx + fb t * dy)); [ring|]. rewrite F1, F2. ring. }
    apply Rmult_integral in X, Y. destruct X as [X|X]; [contradiction|]. destruct Y as [Y|Y]; [contradiction|].
    split; apply INR_eq; unfold dx, dy in *; lra. }
  assert (ND : NoDup (all_pixels h w)).
  { unfold all_pixels. generalize 0%nat at 2. induction h as [|h IH]; intros o; [constructor|]. cbn [seq flat_map]. apply NoDup_app'.
    - apply FinFun.Injective_map_NoDup; [intros a b X; now injection X|apply seq_NoDup].
    - apply IH.
    - intros [x y] A B. apply in_map_iff in A. destruct A as (z & Z & _). injection Z as <- _.
      apply in_flat_map in B. destruct B as (u & U & B). apply in_map_iff in B. destruct B as (v & V & _). injection V as -> _.
      apply in_seq in U. lia. }
  induction (all_pixels h w) as [|[i j] l IH]; [constructor|]. cbn [flat_map]. inversion ND as [|? ? NI ND']; subst. rewrite map_app.
  apply NoDup_app'; auto.
  - destruct (inside i j); [|constructor]. destruct (read i j); cbn; constructor; auto; constructor.
  - intros c A B. apply NI. assert (C : c = pixel_centre t i j).
    { destruct (inside i j); [|destruct A]. destruct (read i j); cbn in A; [destruct A|destruct A as [A|[]]; auto]. }
    apply in_map_iff in B. destruct B as ([c' v] & B1 & B2). cbn in B1. subst c'. apply in_flat_map in B2. destruct B2 as ([i' j'] & B3 & B4).
    destruct (inside i' j'); [|destruct B4]. destruct (read i' j'); [destruct B4|]. destruct B4 as [B4|[]]. injection B4 as B4 _. rewrite C in B4.
    apply INJ in B4. destruct B4 as [-> ->]. exact B3.
Qed.
Example C86_ex : extract_area 2 2 (fun i j => (j =? 1)%nat) (fun i j => if (i =? 0)%nat then Value (Some 7) else Masked) (Aff 10 0 100 0 (-10) 50) =
  [(115, 45, Some 7)].
Proof. rewrite C86_extract. cbn. unfold pixel_centre, aff_apply. cbn [fa fb fc fd fe ff INR]. do 2 f_equal. f_equal; lra. Qed.

(** * C112 *)
Lemma aff_inverse : forall t ti x y, aff_invert t = Some ti ->
  aff_apply t (fst (aff_apply ti x y)) (snd (aff_apply ti x y)) = (x, y) /\ aff_apply ti (fst (aff_apply t x y)) (snd (aff_apply t x y)) = (x, y).
Proof.
  intros t ti x y H. unfold aff_invert in H. destruct (Req_EM_T (fa t * fe t - fb t * fd t) 0) as [|n]; [discriminate|].
  injection H as <-. unfold aff_apply. cbn [fa fb fc fd fe ff fst snd]. split; f_equal; field; auto.
Qed.
(** p lies on a segment between two points of l *)
Definition between (l : list (R * R)) (p : R * R) : Prop :=
  exists q r u, In q l /\ In r l /\ 0 <= u <= 1 /\ p = (u * fst q + (1 - u) * fst r, u * snd q + (1 - u) * snd r).
(** x and y of the output are those of the line: all of its vertices, in order, when it
    is not subdivided *)
Theorem C112_positions : forall a t sub geom out, extract_line a t sub geom = Some out ->
  (sub = (fun l => l) -> map fst out = geom) /\
  ((forall l p, In p l -> In p (sub l)) -> forall p, In p geom -> In p (map fst out)) /\
  ((forall l p, In p (sub l) -> between l p) -> forall p, In p (map fst out) -> between geom p).
Proof.
  intros a t sub geom out H. unfold extract_line in H. destruct (aff_invert t) as [ti|] eqn:ET; [|discriminate].
  set (px := sub (map (fun '(x, y) => aff_apply ti x y) geom)) in *.
  destruct (window_of px) as [[[r0 r1] [c0 c1]]|]; [|discriminate]. destruct (_ || _)%bool; [discriminate|]. injection H as <-.
  assert (M : map fst (map (fun '(x, y) => let '(gx, gy) := aff_apply t x y in (gx, gy, bilinear (Z.to_nat (r1 - r0)) (Z.to_nat (c1 - c0))
     (fun i j => a (Z.to_nat r0 + i)%nat (Z.to_nat c0 + j)%nat) (x - IZR c0) (y - IZR r0))) px) = map (fun p => aff_apply t (fst p) (snd p)) px).
  { rewrite map_map. apply map_ext. intros [x y]. reflexivity. }
  match goal with |- context [map fst ?l] => change (map fst l) with (map fst l); replace (map fst l) with (map (fun p => aff_apply t (fst p) (snd p)) px) by (rewrite <- M; reflexivity) end.
  split; [|split].
  - intros E. unfold px. rewrite E, map_map. rewrite <- (map_id geom) at 2. apply map_ext. intros [x y]. exact (proj1 (aff_inverse t ti x y ET)).
  - intros K [x y] I. apply in_map_iff. exists (aff_apply ti x y). split; [exact (proj1 (aff_inverse t ti x y ET))|]. apply K. apply in_map_iff. exists (x, y). auto.
  - intros K p I. apply in_map_iff in I. destruct I as (p' & E & I). unfold px in I.
    destruct (K _ p' I) as (q & r & u & Q & R & U & P). apply in_map_iff in Q, R.
    destruct Q as ([qx qy] & Q1 & Q2). destruct R as ([rx ry] & R1 & R2). exists (qx, qy), (rx, ry), u. repeat split; try tauto; try lra.
    pose proof (proj1 (aff_inverse t ti qx qy ET)) as AQ. pose proof (proj1 (aff_inverse t ti rx ry ET)) as AR. rewrite Q1 in AQ. rewrite R1 in AR.
    rewrite <- E, P. unfold aff_apply in *. cbn [fst snd] in *. injection AQ as <- <-. injection AR as <- <-. f_equal; ring.
Qed.

(** * C113 *)
Lemma floor_nat_spec : forall t, 0 <= t -> INR (floor_nat t) <= t < INR (floor_nat t) + 1.
Proof.
  intros t T. unfold floor_nat. destruct (base_Int_part t) as [A B].
  assert (P : (0 <= Int_part t)%Z). { apply le_IZR. assert (-1 < IZR (Int_part t)) by lra. apply lt_IZR in H. apply IZR_le. lia. }
  rewrite INR_IZR_INZ, Z2Nat.id by auto. lra.
Qed.
Lemma floor_nat_unique : forall t k, INR k <= t < INR k + 1 -> floor_nat t = k.
Proof.
  intros t k H. pose proof (pos_INR k). pose proof (floor_nat_spec t ltac:(lra)) as F.
  assert (A : INR (floor_nat t) < INR (S k)) by (rewrite S_INR; lra). assert (B : INR k < INR (S (floor_nat t))) by (rewrite S_INR; lra).
  apply INR_lt in A, B. lia.
Qed.
Lemma clamp_id : forall lo hi t, lo <= t <= hi -> clampR lo hi t = t.
Proof. intros lo hi t H. unfold clampR. rewrite Rmin_right by lra. now rewrite Rmax_right by lra. Qed.
Lemma lerp_shift : forall n m o f t, (o + m <= n)%nat -> (0 < m)%nat -> INR o <= t <= INR (o + m - 1) ->
  lerp m (fun i => f (o + i)%nat) (t - INR o) = lerp n f t.
Proof.
  intros n m o f t L M T. pose proof (pos_INR o) as PO.
  assert (H1 : INR (o + m - 1) = INR o + INR (m - 1)) by (rewrite <- plus_INR; f_equal; lia).
  assert (H2 : INR (o + m - 1) <= INR (n - 1)) by (apply le_INR; lia).
  unfold lerp. rewrite !clamp_id by lra.
  pose proof (floor_nat_spec t ltac:(lra)) as F. set (i := floor_nat t) in *.
  assert (OI : (o <= i)%nat). { assert (X : INR o < INR (S i)) by (rewrite S_INR; lra). apply INR_lt in X. lia. }
  assert (IM : (i <= o + m - 1)%nat). { apply INR_le. lra. }
  assert (E : floor_nat (t - INR o) = (i - o)%nat). { apply floor_nat_unique. rewrite minus_INR by auto. lra. }
  rewrite E, minus_INR by auto. replace (o + (i - o))%nat with i by lia.
  replace (t - INR o - (INR i - INR o)) with (t - INR i) by ring.
  destruct (Nat.eq_dec i (o + m - 1)) as [e|ne].
  - assert (t = INR i) by (rewrite e in *; lra). rewrite H. ring.
  - replace (o + Nat.min (S (i - o)) (m - 1))%nat with (Nat.min (S i) (n - 1)) by lia. reflexivity.
Qed.
Lemma lerp_ext : forall n f g t, (forall i, (i < n)%nat -> f i = g i) -> (0 < n)%nat -> lerp n f t = lerp n g t.
Proof.
  intros n f g t H N. unfold lerp. set (c := clampR _ _ _).
  assert (C : 0 <= c <= INR (n - 1)).
  { unfold c, clampR. pose proof (pos_INR (n - 1)). split; [apply Rmax_l|]. apply Rmax_lub; auto. apply Rmin_l. }
  pose proof (floor_nat_spec c ltac:(lra)) as F.
  assert (I : (floor_nat c <= n - 1)%nat) by (apply INR_le; lra).
  rewrite !H by lia. reflexivity.
Qed.
(** full raster H x W; the value read from a window is the raster's own interpolation at
    every position at least half a pixel away from the window's edge *)
Lemma window_interpolation : forall H W a r0 r1 c0 c1 x y, (0 <= r0 < r1)%Z -> (0 <= c0 < c1)%Z -> (Z.to_nat r1 <= H)%nat -> (Z.to_nat c1 <= W)%nat ->
  IZR c0 + 1 / 2 <= x <= IZR c1 - 1 / 2 -> IZR r0 + 1 / 2 <= y <= IZR r1 - 1 / 2 ->
  bilinear (Z.to_nat (r1 - r0)) (Z.to_nat (c1 - c0)) (fun i j => a (Z.to_nat r0 + i)%nat (Z.to_nat c0 + j)%nat) (x - IZR c0) (y - IZR r0) = bilinear H W a x y.
Proof.
  intros H W a r0 r1 c0 c1 x y R C LR LC X Y. unfold bilinear.
  assert (IR : IZR r0 = INR (Z.to_nat r0)) by (rewrite INR_IZR_INZ, Z2Nat.id; auto; lia).
  assert (IC : IZR c0 = INR (Z.to_nat c0)) by (rewrite INR_IZR_INZ, Z2Nat.id; auto; lia).
  assert (SR : INR (Z.to_nat r0 + Z.to_nat (r1 - r0) - 1) = IZR r1 - 1).
  { rewrite INR_IZR_INZ, <- minus_IZR. f_equal. lia. }
  assert (SC : INR (Z.to_nat c0 + Z.to_nat (c1 - c0) - 1) = IZR c1 - 1).
  { rewrite INR_IZR_INZ, <- minus_IZR. f_equal. lia. }
  rewrite <- (lerp_shift H (Z.to_nat (r1 - r0)) (Z.to_nat r0) _ (y - 1 / 2)) by (try lia; rewrite ?SR, <- ?IR; lra).
  rewrite IR. replace (y - INR (Z.to_nat r0) - 1 / 2) with (y - 1 / 2 - INR (Z.to_nat r0)) by ring.
  apply lerp_ext; [|lia]. intros i _.
  rewrite <- (lerp_shift W (Z.to_nat (c1 - c0)) (Z.to_nat c0) (fun j => a (Z.to_nat r0 + i)%nat j) (x - 1 / 2)) by (try lia; rewrite ?SC, <- ?IC; lra).
  rewrite IC. f_equal. ring.
Qed.
(** linear interpolation on its own terms: between two neighbouring samples, nearest at the ends *)
Lemma lerp_value : forall n f t i w, (S i < n)%nat -> 0 <= w <= 1 -> t = INR i + w -> lerp n f t = (1 - w) * f i + w * f (S i).
Proof.
  intros n f t i w LI W ->. unfold lerp. assert (B : INR i + 1 <= INR (n - 1)) by (rewrite <- S_INR; apply le_INR; lia). pose proof (pos_INR i).
  rewrite clamp_id by lra. destruct (Req_dec w 1) as [->|NW].
  - rewrite (floor_nat_unique (INR i + 1) (S i)) by (rewrite S_INR; lra). rewrite S_INR. ring.
  - rewrite (floor_nat_unique (INR i + w) i) by lra. rewrite Nat.min_l by lia. ring.
Qed.
(** the four neighbouring pixel centres weighted by the opposite areas *)
Theorem C113_bilinear : forall h w a i j u v, (S i < h)%nat -> (S j < w)%nat -> 0 <= u <= 1 -> 0 <= v <= 1 ->
  bilinear h w a (INR j + 1 / 2 + u) (INR i + 1 / 2 + v) =
  (1 - u) * (1 - v) * a i j + u * (1 - v) * a i (S j) + (1 - u) * v * a (S i) j + u * v * a (S i) (S j).
Proof.
  intros h w a i j u v LI LJ U V. unfold bilinear.
  rewrite (lerp_value h _ _ i v) by (auto; ring). rewrite !(lerp_value w _ _ j u) by (auto; ring). ring.
Qed.
(** a raster holding a plane is sampled on that plane between its pixel centres *)
Theorem C113_plane : forall h w a p q r i j u v, (forall i j, a i j = p + q * (INR j + 1 / 2) + r * (INR i + 1 / 2)) ->
  (S i < h)%nat -> (S j < w)%nat -> 0 <= u <= 1 -> 0 <= v <= 1 ->
  bilinear h w a (INR j + 1 / 2 + u) (INR i + 1 / 2 + v) = p + q * (INR j + 1 / 2 + u) + r * (INR i + 1 / 2 + v).
Proof. intros h w a p q r i j u v A LI LJ U V. rewrite C113_bilinear by auto. rewrite !A, !S_INR. ring. Qed.
Lemma fold_min : forall (l : list (R * R)) f a, fold_left (fun m p => Rmin m (f p)) l a <= a /\ (forall p, In p l -> fold_left (fun m p => Rmin m (f p)) l a <= f p).
Proof.
  induction l as [|q l IH]; intros f a; cbn [fold_left]; [split; [lra|intros p []]|]. destruct (IH f (Rmin a (f q))) as [A B]. split.
  - eapply Rle_trans; [exact A|apply Rmin_l].
  - intros p [<-|I]; auto. eapply Rle_trans; [exact A|apply Rmin_r].
Qed.
Lemma fold_max : forall (l : list (R * R)) f a, a <= fold_left (fun m p => Rmax m (f p)) l a /\ (forall p, In p l -> f p <= fold_left (fun m p => Rmax m (f p)) l a).
Proof.
  induction l as [|q l IH]; intros f a; cbn [fold_left]; [split; [lra|intros p []]|]. destruct (IH f (Rmax a (f q))) as [A B]. split.
  - eapply Rle_trans; [apply Rmax_l|exact A].
  - intros p [<-|I]; auto. eapply Rle_trans; [apply Rmax_r|exact A].
Qed.
Lemma fold_min_in : forall (l : list (R * R)) f q, exists p, In p (q :: l) /\ fold_left (fun m p => Rmin m (f p)) l (f q) = f p.
Proof.
  induction l as [|x l IH]; intros f q; cbn [fold_left]; [exists q; cbn; auto|].
  destruct (Rle_dec (f q) (f x)) as [L|L].
  - rewrite Rmin_left by auto. destruct (IH f q) as (p & [<-|I] & E); eexists; (split; [|exact E]); cbn; auto.
  - rewrite Rmin_right by lra. destruct (IH f x) as (p & [<-|I] & E); eexists; (split; [|exact E]); cbn; auto.
Qed.
Lemma fold_max_in : forall (l : list (R * R)) f q, exists p, In p (q :: l) /\ fold_left (fun m p => Rmax m (f p)) l (f q) = f p.
Proof.
  induction l as [|x l IH]; intros f q; cbn [fold_left]; [exists q; cbn; auto|].
  destruct (Rle_dec (f q) (f x)) as [L|L].
  - rewrite Rmax_right by auto. destruct (IH f x) as (p & [<-|I] & E); eexists; (split; [|exact E]); cbn; auto.
  - rewrite Rmax_left by lra. destruct (IH f q) as (p & [<-|I] & E); eexists; (split; [|exact E]); cbn; auto.
Qed.
(** the smallest window of whole pixels that holds every position *)
Theorem C113_window : forall px r0 r1 c0 c1, window_of px = Some ((r0, r1), (c0, c1)) ->
  (forall x y, In (x, y) px -> IZR r0 <= y <= IZR r1 /\ IZR c0 <= x <= IZR c1) /\
  (exists p, In p px /\ snd p < IZR r0 + 1) /\ (exists p, In p px /\ IZR r1 - 1 < snd p) /\
  (exists p, In p px /\ fst p < IZR c0 + 1) /\ (exists p, In p px /\ IZR c1 - 1 < fst p).
Proof.
  intros px r0 r1 c0 c1 H. destruct px as [|[x0 y0] l]; [discriminate|]. cbn [window_of] in H. injection H as <- <- <- <-.
  assert (FL : forall r, IZR (Int_part r) <= r < IZR (Int_part r) + 1) by (intros r; destruct (base_Int_part r); lra).
  assert (CE : forall r, r <= IZR (- Int_part (- r)) /\ IZR (- Int_part (- r)) - 1 < r) by (intros r; rewrite opp_IZR; pose proof (FL (- r)); lra).
  set (mny := fold_left (fun m p => Rmin m (snd p)) l y0). set (mxy := fold_left (fun m p => Rmax m (snd p)) l y0).
  set (mnx := fold_left (fun m p => Rmin m (fst p)) l x0). set (mxx := fold_left (fun m p => Rmax m (fst p)) l x0).
  pose proof (FL mny). pose proof (FL mnx). pose proof (CE mxy). pose proof (CE mxx).
  split.
  - intros x y I.
    destruct (fold_min l snd y0) as [A1 A2]. destruct (fold_max l snd y0) as [B1 B2]. destruct (fold_min l fst x0) as [C1 C2]. destruct (fold_max l fst x0) as [D1 D2].
    fold mny in A1, A2. fold mxy in B1, B2. fold mnx in C1, C2. fold mxx in D1, D2.
    destruct I as [E|I]; [injection E as <- <-; lra|]. specialize (A2 _ I). specialize (B2 _ I). specialize (C2 _ I). specialize (D2 _ I). cbn [fst snd] in *. lra.
  - destruct (fold_min_in l snd (x0, y0)) as (p1 & I1 & E1). destruct (fold_max_in l snd (x0, y0)) as (p2 & I2 & E2).
    destruct (fold_min_in l fst (x0, y0)) as (p3 & I3 & E3). destruct (fold_max_in l fst (x0, y0)) as (p4 & I4 & E4). cbn [fst snd] in E1, E2, E3, E4.
    fold mny in E1. fold mxy in E2. fold mnx in E3. fold mxx in E4.
    split; [exists p1; split; auto; lra|]. split; [exists p2; split; auto; lra|]. split; [exists p3; split; auto; lra|exists p4; split; auto; lra].
Qed.
Theorem C113_interior : forall H W a t ti sub geom out r0 r1 c0 c1, extract_line a t sub geom = Some out -> aff_invert t = Some ti ->
  window_of (sub (map (fun '(x, y) => aff_apply ti x y) geom)) = Some ((r0, r1), (c0, c1)) ->
  (0 <= r0)%Z -> (0 <= c0)%Z -> (Z.to_nat r1 <= H)%nat -> (Z.to_nat c1 <= W)%nat ->
  forall gx gy z, In (gx, gy, z) out -> let '(x, y) := aff_apply ti gx gy in
  IZR c0 + 1 / 2 <= x <= IZR c1 - 1 / 2 -> IZR r0 + 1 / 2 <= y <= IZR r1 - 1 / 2 -> z = bilinear H W a x y.
Proof.
  intros H W a t ti sub geom out r0 r1 c0 c1 E ET EW R0 C0 LR LC gx gy z I. unfold extract_line in E. rewrite ET, EW in E.
  destruct (Z.leb_spec r1 r0); [discriminate|]. destruct (Z.leb_spec c1 c0); [discriminate|]. cbn [orb] in E. injection E as <-.
  apply in_map_iff in I. destruct I as ([x y] & E & I). pose proof (proj2 (aff_inverse t ti x y ET)) as K.
  injection E as <- <- <-. unfold aff_apply at 2 3 in K. cbn [fst snd] in K. rewrite K. intros X Y.
  apply window_interpolation; auto; lia.
Qed.
(** near the edge of the window the samples next to it are not read: a line over a raster
    whose values are the plane z = column is not extracted on that plane *)
Theorem C113_edge_refuted : exists H W a t geom out, (forall i j, a i j = INR j) /\ aff_invert t = Some t /\
  (forall p, In p geom -> 1 <= fst p <= INR W - 1 /\ 1 <= snd p <= INR H - 1) /\
  extract_line a t (fun l => l) geom = Some out /\
  exists x y z, In (x, y, z) out /\ bilinear H W a x y = x - 1 / 2 /\ z <> bilinear H W a x y.
Proof.
  exists 4%nat, 4%nat, (fun _ j => INR j), (Aff 1 0 0 0 1 0), [(5 / 4, 3 / 2); (11 / 4, 3 / 2)]. eexists. split; [auto|].
  assert (IV : aff_invert (Aff 1 0 0 0 1 0) = Some (Aff 1 0 0 0 1 0)).
  { unfold aff_invert. cbn [fa fb fc fd fe ff]. destruct (Req_EM_T _ 0); [lra|]. do 2 f_equal; field. }
  split; auto. split. { intros p [<-|[<-|[]]]; cbn [fst snd INR]; lra. }
  assert (PX : map (fun '(x, y) => aff_apply (Aff 1 0 0 0 1 0) x y) [(5 / 4, 3 / 2); (11 / 4, 3 / 2)] = [(5 / 4, 3 / 2); (11 / 4, 3 / 2)]).
  { cbn [map]. unfold aff_apply. cbn [fa fb fc fd fe ff].
    repeat (apply (f_equal2 cons); [apply (f_equal2 pair); ring|]). reflexivity. }
  assert (WN : window_of [(5 / 4, 3 / 2); (11 / 4, 3 / 2)] = Some ((1, 2), (1, 3))%Z).
  { cbn [window_of fold_left fst snd]. rewrite !Rmin_left by lra. rewrite !Rmax_right by lra.
    assert (IS : forall r z, IZR z <= r < IZR z + 1 -> Int_part r = z).
    { intros r z Z. destruct (base_Int_part r). assert (D : (Int_part r < z + 1)%Z) by (apply lt_IZR; rewrite plus_IZR; lra).
      assert (D2 : (z < Int_part r + 1)%Z) by (apply lt_IZR; rewrite plus_IZR; lra). lia. }
    assert (I1 : Int_part (3 / 2) = 1%Z) by (apply IS; lra).
    assert (I2 : Int_part (- (3 / 2)) = (-2)%Z) by (apply IS; lra).
    assert (I3 : Int_part (5 / 4) = 1%Z) by (apply IS; lra).
    assert (I4 : Int_part (- (11 / 4)) = (-3)%Z) by (apply IS; lra).
    rewrite I1, I2, I3, I4. reflexivity. }
  split. { unfold extract_line. rewrite IV, PX, WN. cbn [Z.leb Z.compare Pos.compare Pos.compare_cont orb]. reflexivity. }
  exists (1 * (5 / 4) + 0 * (3 / 2) + 0), (0 * (5 / 4) + 1 * (3 / 2) + 0). eexists. split; [left; reflexivity|].
  replace (1 * (5 / 4) + 0 * (3 / 2) + 0) with (5 / 4) by field. replace (0 * (5 / 4) + 1 * (3 / 2) + 0) with (3 / 2) by field.
  assert (B : bilinear 4 4 (fun _ j => INR j) (5 / 4) (3 / 2) = 5 / 4 - 1 / 2).
  { unfold bilinear, lerp. change (4 - 1)%nat with 3%nat. rewrite !clamp_id by (cbn [INR]; lra).
    rewrite (floor_nat_unique (3 / 2 - 1 / 2) 1) by (cbn [INR]; lra). rewrite (floor_nat_unique (5 / 4 - 1 / 2) 0) by (cbn [INR]; lra). cbn. field. }
  split; auto. rewrite B. unfold bilinear, lerp.
  change (Z.to_nat (2 - 1)) with 1%nat. change (Z.to_nat (3 - 1)) with 2%nat. change (Z.to_nat 1) with 1%nat. change (1 - 1)%nat with 0%nat. change (2 - 1)%nat with 1%nat.
  assert (K1 : clampR 0 (INR 0) (3 / 2 - 1 - 1 / 2) = 0). { unfold clampR. cbn [INR]. rewrite Rmin_left by lra. apply Rmax_left. lra. }
  assert (K2 : clampR 0 (INR 1) (5 / 4 - 1 - 1 / 2) = 0). { unfold clampR. cbn [INR]. rewrite Rmin_right by lra. apply Rmax_left. lra. }
  rewrite K1, K2. rewrite (floor_nat_unique 0 0) by (cbn [INR]; lra). cbn [Nat.min Nat.add INR]. lra.
Qed.
(** a line over three pixels of the same raster, its middle point inside the window *)
Example C113_ex : exists out, extract_line (fun _ j => INR j) (Aff 1 0 0 0 1 0) (fun l => l) [(1, 1); (2, 2); (3, 3)] = Some out /\ In (2, 2, 3 / 2) out.
Proof.
  assert (IV : aff_invert (Aff 1 0 0 0 1 0) = Some (Aff 1 0 0 0 1 0)).
  { unfold aff_invert. cbn [fa fb fc fd fe ff]. destruct (Req_EM_T _ 0); [lra|]. do 2 f_equal; field. }
  assert (PX : map (fun '(x, y) => aff_apply (Aff 1 0 0 0 1 0) x y) [(1, 1); (2, 2); (3, 3)] = [(1, 1); (2, 2); (3, 3)]).
  { cbn [map]. unfold aff_apply. cbn [fa fb fc fd fe ff]. repeat (apply (f_equal2 cons); [apply (f_equal2 pair); ring|]). reflexivity. }
  assert (IS : forall z, Int_part (IZR z) = z).
  { intros z. destruct (base_Int_part (IZR z)). assert (D : (Int_part (IZR z) < z + 1)%Z) by (apply lt_IZR; rewrite plus_IZR; lra).
    assert (D2 : (z < Int_part (IZR z) + 1)%Z) by (apply lt_IZR; rewrite plus_IZR; lra). lia. }
  assert (WN : window_of [(1, 1); (2, 2); (3, 3)] = Some ((1, 3), (1, 3))%Z).
  { cbn [window_of fold_left fst snd]. rewrite !Rmin_left by (rewrite ?Rmin_left; lra). rewrite !(Rmax_right 1 2), !Rmax_right by lra.
    replace (- (3)) with (IZR (-3)) by lra. rewrite !IS. reflexivity. }
  assert (E : exists out, extract_line (fun _ j => INR j) (Aff 1 0 0 0 1 0) (fun l => l) [(1, 1); (2, 2); (3, 3)] = Some out /\ exists z, In (2, 2, z) out).
  { eexists. split; [unfold extract_line; rewrite IV, PX, WN; cbn [Z.leb Z.compare Pos.compare Pos.compare_cont orb]; reflexivity|].
    eexists. right. left. unfold aff_apply. cbn [fa fb fc fd fe ff]. apply (f_equal2 pair); [apply (f_equal2 pair); ring|reflexivity]. }
  destruct E as (out & E & z & I). exists out. split; auto. replace (3 / 2) with z; auto.
  pose proof (C113_interior 4 4 (fun _ j => INR j) _ _ (fun l => l) _ out 1 3 1 3 E IV) as K. rewrite PX in K.
  specialize (K WN ltac:(lia) ltac:(lia) ltac:(cbn; lia) ltac:(cbn; lia) _ _ _ I). unfold aff_apply in K. cbn [fa fb fc fd fe ff] in K.
  rewrite K by lra. unfold bilinear, lerp. change (4 - 1)%nat with 3%nat. rewrite !clamp_id by (cbn [INR]; lra).
  rewrite !(floor_nat_unique _ 1) by (cbn [INR]; lra). cbn [Nat.min INR]. lra.
Qed.
Example C112_ex : forall out, extract_line (fun _ j => INR j) (Aff 1 0 0 0 1 0) (fun l => l) [(1, 1); (2, 2); (3, 3)] = Some out ->
  map fst out = [(1, 1); (2, 2); (3, 3)].
Proof. intros out H. apply (proj1 (C112_positions _ _ _ _ _ H)). reflexivity. Qed.

Print Assumptions C84_clean.
Print Assumptions C85_bounding_box.
Print Assumptions C86_extract.
Print Assumptions C86_no_duplicates.
Print Assumptions C112_positions.
Print Assumptions C113_bilinear.
Print Assumptions C113_plane.
Print Assumptions C113_window.
Print Assumptions C113_interior.
Print Assumptions C113_edge_refuted.
