(** Properties of the state of the browser pages (C127-C135). *)
From Coq Require Import Reals Lra Lia List Arith String ZArith Bool.
From Verif Require Import RVec Trig MPca MAxes MFront MUi SpecUi.
Import ListNotations.
Open Scope R_scope.
Notation length := List.length.

(** * C127: empty rows *)
Lemma ceil_div_spec : forall n m, (0 < m)%nat -> (n <= ceil_div n m * m < n + m)%nat.
Proof.
  intros n m M. unfold ceil_div. pose proof (Nat.div_mod (n + m - 1) m ltac:(lia)) as D.
  pose proof (Nat.mod_upper_bound (n + m - 1) m ltac:(lia)). nia.
Qed.
(** The rows given come first, the length becomes the least multiple of the modulus
    that is at least the old length plus the number asked for, and the rows added are
    blank. *)
Theorem C127_rows : forall data modulus target, (0 < modulus)%nat ->
  let out := add_empty_rows data modulus target in
  exists extra, out = (data ++ extra)%list /\
    Nat.divide modulus (length out) /\
    (length data + target <= length out < length data + target + modulus)%nat /\
    forall r, In r extra -> length r = 6%nat /\ forall c, In c r -> exists k, c = Some k /\ c_value k = CNull.
Proof.
  intros data m t M out. unfold out, add_empty_rows. pose proof (ceil_div_spec (length data + t) m M) as S.
  eexists. split; [reflexivity|]. rewrite app_length, repeat_length.
  assert (L : (length data + (ceil_div (length data + t) m * m - length data) = ceil_div (length data + t) m * m)%nat) by lia.
  rewrite L. split; [now exists (ceil_div (length data + t) m)|]. split; [lia|].
  intros r R. apply repeat_spec in R. subst r. split; [reflexivity|].
  intros c C. apply repeat_spec in C. subst c. eexists. split; reflexivity.
Qed.
(** They add nothing to what is plotted. *)
Theorem C127_plotted : forall ps ok data modulus target,
  cleaned_data ps ok (add_empty_rows data modulus target) = cleaned_data ps ok data.
Proof.
  intros ps ok data m t. unfold cleaned_data, add_empty_rows. rewrite flat_map_app.
  set (k := (_ - _)%nat). clearbody k.
  replace (flat_map _ (repeat empty_row k)) with (@nil orientation); [apply app_nil_r|].
  induction k as [|k IH]; simpl; auto.
Qed.
Example C127_ex : length (add_empty_rows [[]; []; []] 10 0) = 10%nat /\ length (add_empty_rows [[]; []; []] 10 10) = 20%nat.
Proof. split; reflexivity. Qed.

(** * C128: edits to the sheet *)
Lemma set_nth_length : forall A (d : A) i v l, (i < length l)%nat -> length (set_nth d i v l) = length l.
Proof. intros A d i. induction i as [|i IH]; intros v [|x l] H; simpl in *; try lia. rewrite IH; lia. Qed.
Lemma nth_set_nth : forall A (d : A) i v l j, nth j (set_nth d i v l) d = if (j =? i)%nat then v else nth j l d.
Proof.
  intros A d i. induction i as [|i IH]; intros v l j.
  - destruct l as [|x l]; destruct j as [|[|j]]; simpl; auto.
  - destruct l as [|x l]; destruct j as [|j]; simpl; try reflexivity; rewrite IH; destruct (j =? i)%nat; try reflexivity; now destruct j.
Qed.
Lemma nth_error_set_nth : forall A (d : A) k v g i, (k < length g)%nat ->
  nth_error (set_nth d k v g) i = if (i =? k)%nat then Some v else nth_error g i.
Proof.
  intros A d k v g. revert k. induction g as [|x g IH]; intros k i K; simpl in K; [lia|].
  destruct k; destruct i; simpl; auto. rewrite IH by lia. reflexivity.
Qed.
Lemma cell_set : forall i v r j, cell_at (set_nth None i v r) j = if (j =? i)%nat then v else cell_at r j.
Proof. intros. unfold cell_at. apply nth_set_nth. Qed.

Section S.
  Variable ps : string -> option R.
  Variable ok : cellv -> bool.

  Lemma float_cell : forall r j c, cell_at r j = c -> float_at ps r j = obind c (fun c => parse_float ps (c_value c)).
  Proof. intros r j c <-. reflexivity. Qed.

  Lemma present : forall r j x, float_at ps r j = Some x -> (j < length r)%nat.
  Proof.
    intros r j x H. destruct (Nat.lt_ge_cases j (length r)) as [h|h]; auto.
    unfold float_at, cell_at in H. rewrite nth_overflow in H by auto. discriminate.
  Qed.

  Lemma finalize_swapped : forall r a b, float_at ps r 3 = Some a -> float_at ps r 4 = Some b -> a < b ->
    let r' := set_nth None 4 (cell_at r 3) (set_nth None 3 (cell_at r 4) r) in
    finalize_row ps r = r' /\ float_at ps r' 3 = Some b /\ float_at ps r' 4 = Some a /\
    cell_at r' 3 = cell_at r 4 /\ cell_at r' 4 = cell_at r 3 /\
    (forall j, j <> 3%nat -> j <> 4%nat -> cell_at r' j = cell_at r j) /\ length r' = length r.
  Proof.
    intros r a b A B L r'.
    assert (C3 : cell_at r' 3 = cell_at r 4) by (unfold r'; rewrite !cell_set; reflexivity).
    assert (C4 : cell_at r' 4 = cell_at r 3) by (unfold r'; rewrite !cell_set; reflexivity).
    assert (P4 := present _ _ _ B).
    split. { unfold finalize_row. rewrite A, B. destruct (Rlt_dec a b); [reflexivity|contradiction]. }
    split. { rewrite (float_cell _ _ _ C3). exact B. }
    split. { rewrite (float_cell _ _ _ C4). exact A. }
    split; [exact C3|]. split; [exact C4|]. split.
    - intros j J3 J4. unfold r'. rewrite !cell_set. apply Nat.eqb_neq in J3, J4. now rewrite J3, J4.
    - unfold r'. rewrite !set_nth_length; auto; try lia. rewrite set_nth_length; lia.
  Qed.
  Lemma finalize_kept : forall r, (forall a b, float_at ps r 3 = Some a -> float_at ps r 4 = Some b -> b <= a) ->
    finalize_row ps r = r.
  Proof.
    intros r H. unfold finalize_row. destruct (float_at ps r 3) as [a|]; auto. destruct (float_at ps r 4) as [b|]; auto.
    destruct (Rlt_dec a b); auto. specialize (H a b eq_refl eq_refl). lra.
  Qed.

  (** After a row is finalised its greatest error is not below its least; at most these
      two cells have changed places, and doing it again changes nothing. *)
Theorem C128_finalize : forall r, let r' := finalize_row ps r in
    (forall a b, float_at ps r' 3 = Some a -> float_at ps r' 4 = Some b -> b <= a) /\
    (forall j, j <> 3%nat -> j <> 4%nat -> cell_at r' j = cell_at r j) /\
    ((cell_at r' 3, cell_at r' 4) = (cell_at r 3, cell_at r 4) \/
     (cell_at r' 3, cell_at r' 4) = (cell_at r 4, cell_at r 3)) /\
    finalize_row ps r' = r' /\ length r' = length r.
  Proof.
    intros r r'.
    assert (D : (exists a b, float_at ps r 3 = Some a /\ float_at ps r 4 = Some b /\ a < b) \/
                (forall a b, float_at ps r 3 = Some a -> float_at ps r 4 = Some b -> b <= a)).
    { destruct (float_at ps r 3) as [a|]; [|right; intros; discriminate].
      destruct (float_at ps r 4) as [b|]; [|right; intros; discriminate].
      destruct (Rlt_dec a b); [left; eauto|right; intros x y X Y; injection X; injection Y; intros; subst; lra]. }
    destruct D as [(a & b & A & B & L)|D].
    - destruct (finalize_swapped r a b A B L) as (E & F3 & F4 & C3 & C4 & O & LEN). unfold r'. rewrite E.
      split. { intros x y X Y. rewrite F3 in X. rewrite F4 in Y. injection X; injection Y; intros; subst; lra. }
      split; [exact O|]. split; [right; now rewrite C3, C4|]. split; [|exact LEN].
      apply finalize_kept. intros x y X Y. rewrite F3 in X. rewrite F4 in Y. injection X; injection Y; intros; subst; lra.
    - unfold r'. rewrite (finalize_kept r D). split; [exact D|]. split; [auto|]. split; [now left|].
      split; [now apply finalize_kept|reflexivity].
  Qed.

  Lemma lookup_assign : forall A k (v : A) l j, lookup j (assign k v l) = if (j =? k)%nat then Some v else lookup j l.
  Proof.
    intros A k v l j. induction l as [|[k' v'] t IH]; simpl.
    - destruct (j =? k)%nat; auto.
    - destruct (Nat.eqb_spec k k').
      + subst. simpl. destruct (j =? k')%nat; auto.
      + simpl. rewrite IH. destruct (Nat.eqb_spec j k'); auto. subst. destruct (Nat.eqb_spec k' k); auto. congruence.
  Qed.
  Lemma keys_assign : forall A k (v : A) l, NoDup (map fst l) -> NoDup (map fst (assign k v l)).
  Proof.
    intros A k v l. induction l as [|[k' v'] t IH]; simpl; intros N.
    - constructor; [simpl; auto|constructor].
    - destruct (Nat.eqb_spec k k'); simpl.
      + subst. exact N.
      + inversion N as [|? ? NI N']; subst. constructor; [|apply IH; auto].
        intros H. apply NI. clear - H n. induction t as [|[a b] t IH]; simpl in *; [destruct H; congruence|].
        destruct (Nat.eqb_spec k a); simpl in *; intuition.
  Qed.
  Definition row_spec (s : spec) (i : nat) : list (nat * cellv) := match lookup i s with None => [] | Some x => x end.
  Definition good (s : spec) : Prop := NoDup (map fst s) /\ forall i, NoDup (map fst (row_spec s i)).

  Lemma add_good : forall s c, good s -> good (add_change s c).
  Proof.
    intros s [[r k] v] [G1 G2]. split; simpl.
    - now apply keys_assign.
    - intros i. unfold row_spec. rewrite lookup_assign. destruct (Nat.eqb_spec i r); [|apply G2].
      apply keys_assign. apply (G2 r).
  Qed.
  Lemma spec_gen : forall cs s, good s -> let s' := fold_left add_change cs s in
    good s' /\ (forall i j, lookup j (row_spec s' i) = match last_write cs i j with Some v => Some v | None => lookup j (row_spec s i) end) /\
    (forall i, In i (map fst s') <-> In i (map fst s) \/ In i (map (fun c => fst (fst c)) cs)).
  Proof.
    induction cs as [|c cs IH]; intros s G; cbn [fold_left].
    - simpl. split; auto. split; auto. intros; tauto.
    - destruct (IH (add_change s c) (add_good s c G)) as (G' & L & K). split; [exact G'|]. split.
      + intros i j. rewrite L. destruct c as [[r k] v]. cbn [last_write].
        destruct (last_write cs i j); auto. unfold row_spec at 1. cbn [add_change]. rewrite lookup_assign.
        rewrite (Nat.eqb_sym i r). destruct (Nat.eqb_spec r i); cbn [andb]; auto. subst r.
        rewrite lookup_assign. rewrite (Nat.eqb_sym j k). destruct (k =? j)%nat; auto.
      + intros i. rewrite K. destruct c as [[r k] v]. cbn [add_change map fst].
        assert (KA : forall (A : Type) (x : A) (l : list (nat * A)), In i (map fst (assign r x l)) <-> r = i \/ In i (map fst l)).
        { intros A x l. induction l as [|[a b] t IHl]; simpl; [tauto|]. destruct (Nat.eqb_spec r a); simpl; [subst; tauto|]. rewrite IHl. tauto. }
        rewrite KA. simpl. tauto.
  Qed.

  Lemma update_row_cell : forall s r j, NoDup (map fst s) ->
    cell_at (update_row r s) j = match lookup j s with Some v => Some (mkCell v "") | None => cell_at r j end.
  Proof.
    induction s as [|[k v] s IH]; intros r j N; cbn [update_row fold_left lookup]; auto.
    inversion N as [|? ? NI N']; subst. change (fold_left _ s ?x) with (update_row x s). rewrite IH by auto.
    rewrite cell_set. destruct (Nat.eqb_spec j k); auto. subst.
    assert (Z : lookup k s = None).
    { clear - NI. induction s as [|[a b] s IH]; simpl in *; auto. destruct (Nat.eqb_spec k a); [subst; intuition|]. apply IH. intuition. }
    now rewrite Z.
  Qed.

  Lemma raise_stays : forall (s : spec) e,
    fold_left (fun acc '(i, rs) => rbind acc (fun g => match nth_error g i with
      | None => Raise TypeError | Some r => Ok (set_nth [] i (update_row r rs) g) end)) s (@Raise grid e) = Raise e.
  Proof. induction s as [|[i rs] s IH]; intros e; simpl; auto. Qed.

  Lemma update_grid_ok : forall s g, NoDup (map fst s) -> (forall i, In i (map fst s) -> (i < length g)%nat) ->
    exists g', update_grid g s = Ok g' /\ length g' = length g /\
      forall i, nth_error g' i = option_map (fun r => update_row r (row_spec s i)) (nth_error g i).
  Proof.
    unfold update_grid. induction s as [|[k rs] s IH]; intros g N H; cbn [fold_left].
    - exists g. split; auto. split; auto. intros i. unfold row_spec. simpl. now destruct (nth_error g i).
    - inversion N as [|? ? NI N']; subst. assert (K : (k < length g)%nat) by (apply H; simpl; auto).
      destruct (nth_error g k) as [r|] eqn:E; [|apply nth_error_None in E; lia]. cbn [rbind]. rewrite E.
      destruct (IH (set_nth [] k (update_row r rs) g)) as (g' & EQ & LEN & ROW); auto.
      { intros i I. rewrite set_nth_length by auto. apply H. simpl. auto. }
      exists g'. split; [exact EQ|]. split; [rewrite LEN; now apply set_nth_length|].
      intros i. rewrite ROW.
      rewrite nth_error_set_nth by exact K. unfold row_spec at 1. cbn [lookup]. unfold row_spec. cbn [lookup].
      destruct (Nat.eqb_spec i k).
      + subst i. rewrite E. simpl.
        assert (Z : lookup k s = None).
        { clear - NI. induction s as [|[a b] s IH]; simpl in *; auto. destruct (Nat.eqb_spec k a); [subst; intuition|]. apply IH. intuition. }
        rewrite Z. reflexivity.
      + reflexivity.
  Qed.
  Lemma update_grid_raises : forall s g, (exists i, In i (map fst s) /\ (length g <= i)%nat) -> update_grid g s = Raise TypeError.
  Proof.
    unfold update_grid. induction s as [|[k rs] s IH]; intros g (i & I & L); simpl in I; [contradiction|]. cbn [fold_left rbind].
    destruct (nth_error g k) as [r|] eqn:E; [|apply raise_stays].
    assert (K : (k < length g)%nat) by (apply nth_error_Some; congruence).
    apply IH. exists i. rewrite set_nth_length by auto. destruct I as [I|I]; [lia|auto].
  Qed.

  (** The cell that the changes ask for at (i, j) *)
  Definition wanted (g : grid) (cs : list change) (i j : nat) : option cell :=
    match last_write cs i j with Some v => Some (mkCell v "") | None => cell_at (nth i g []) j end.

  (** A list of changes inside the grid is carried out: every cell holds the last value
      written to it or what it held, apart from the two errors of a row being exchanged
      where needed. *)
Theorem C128_changes : forall g cs, (forall r c v, In (r, c, v) cs -> (r < length g)%nat) ->
    exists g', cells_changed ps g cs = Ok g' /\ length g' = length g /\
    forall i r', nth_error g' i = Some r' ->
      (forall a b, float_at ps r' 3 = Some a -> float_at ps r' 4 = Some b -> b <= a) /\
      (forall j, j <> 3%nat -> j <> 4%nat -> cell_at r' j = wanted g cs i j) /\
      ((cell_at r' 3, cell_at r' 4) = (wanted g cs i 3, wanted g cs i 4) \/
       (cell_at r' 3, cell_at r' 4) = (wanted g cs i 4, wanted g cs i 3)).
  Proof.
    intros g cs H. assert (G0 : good []) by (split; [constructor|intros; constructor]).
    destruct (spec_gen cs [] G0) as ((N & NR) & L & K). fold (changes_spec cs) in *.
    destruct (update_grid_ok (changes_spec cs) g N) as (g' & E & LEN & ROW).
    { intros i I. apply K in I. destruct I as [[]|I]. apply in_map_iff in I. destruct I as ([[r c] v] & <- & I). apply (H r c v I). }
    exists (map (finalize_row ps) g'). unfold cells_changed. rewrite E. cbn [rbind]. split; [reflexivity|].
    split; [now rewrite map_length|]. intros i r' I. rewrite nth_error_map, ROW in I.
    destruct (nth_error g i) as [r|] eqn:GI; simpl in I; [|discriminate]. injection I; intros <-.
    destruct (C128_finalize (update_row r (row_spec (changes_spec cs) i))) as (P1 & P2 & P3 & _).
    assert (W : forall j, cell_at (update_row r (row_spec (changes_spec cs) i)) j = wanted g cs i j).
    { intros j. rewrite update_row_cell by apply NR. rewrite L. unfold wanted.
      destruct (last_write cs i j); auto. simpl. now rewrite (nth_error_nth g i [] GI). }
    split; [exact P1|]. split; [intros j J3 J4; rewrite P2 by auto; apply W|]. now rewrite <- !W.
  Qed.
  (** A change outside the grid throws. *)
Theorem C128_outside : forall g cs r c v, In (r, c, v) cs -> (length g <= r)%nat -> cells_changed ps g cs = Raise TypeError.
  Proof.
    intros g cs r c v I L. unfold cells_changed. assert (G0 : good []) by (split; [constructor|intros; constructor]).
    destruct (spec_gen cs [] G0) as (_ & _ & K). rewrite update_grid_raises; [reflexivity|].
    exists r. split; auto. apply K. right. apply in_map_iff. now exists (r, c, v).
  Qed.

  (** * C129: rows and orientations *)
  (** A row makes no orientation exactly when one of its first five cells is not a
      number or it has no sixth cell; *)
Theorem C129_defined : forall r,
    construct_orientation ps ok r = None <->
    (exists i, (i < 5)%nat /\ float_at ps r i = None) \/ cell_at r 5 = None.
  Proof.
    intros r. unfold construct_orientation. split.
    - destruct (float_at ps r 0) eqn:E0; [|left; exists 0%nat; split; [lia|auto]].
      destruct (float_at ps r 1) eqn:E1; [|left; exists 1%nat; split; [lia|auto]].
      destruct (float_at ps r 2) eqn:E2; [|left; exists 2%nat; split; [lia|auto]].
      destruct (float_at ps r 3) eqn:E3; [|left; exists 3%nat; split; [lia|auto]].
      destruct (float_at ps r 4) eqn:E4; [|left; exists 4%nat; split; [lia|auto]].
      simpl. destruct (cell_at r 5); [discriminate|auto].
    - intros [(i & I & E)|E].
      + destruct i as [|[|[|[|[|i]]]]]; try lia; rewrite E;
          destruct (float_at ps r 0); auto; simpl; destruct (float_at ps r 1); auto; simpl;
          destruct (float_at ps r 2); auto; simpl; destruct (float_at ps r 3); auto.
      + rewrite E. destruct (float_at ps r 0); auto. simpl. destruct (float_at ps r 1); auto. simpl.
        destruct (float_at ps r 2); auto; simpl; destruct (float_at ps r 3); auto. simpl. now destruct (float_at ps r 4).
  Qed.
  (** an orientation put in the sheet comes back, if its colour is one, *)
Theorem C129_round_trip : forall o, ok CNull = false -> (forall c, or_color o = Some c -> ok c = true) ->
    construct_orientation ps ok (transform_data o) = Some o.
  Proof.
    intros [s d k mx mn c] N C. unfold construct_orientation, transform_data. simpl. destruct c as [c|].
    - rewrite (C c eq_refl). reflexivity.
    - rewrite N. reflexivity.
  Qed.
  (** and once a cell has been edited, no orientation plotted has its least error above
      its greatest. *)
Theorem C129_ordered : forall g cs g' o, cells_changed ps g cs = Ok g' -> In o (cleaned_data ps ok g') ->
    or_min o <= or_max o.
  Proof.
    intros g cs g' o E I. unfold cells_changed in E. destruct (update_grid g (changes_spec cs)) as [g1| |]; try discriminate.
    cbn [rbind] in E. injection E; intros <-. unfold cleaned_data in I. apply in_flat_map in I.
    destruct I as (r & R & I). apply in_map_iff in R. destruct R as (r0 & <- & _).
    destruct (C128_finalize r0) as (P & _). revert I. unfold construct_orientation.
    destruct (float_at ps (finalize_row ps r0) 0); [|intros []]. simpl.
    destruct (float_at ps (finalize_row ps r0) 1); [|intros []]. simpl.
    destruct (float_at ps (finalize_row ps r0) 2); [|intros []]. simpl.
    destruct (float_at ps (finalize_row ps r0) 3) as [a|]; [|intros []]. simpl.
    destruct (float_at ps (finalize_row ps r0) 4) as [b|]; [|intros []]. simpl.
    destruct (cell_at (finalize_row ps r0) 5); [|intros []]. simpl. intros [<-|[]]. simpl. auto.
  Qed.
End S.

Definition no_parse (s : string) : option R := None.
Definition some_color (v : cellv) : bool := match v with CStr _ => true | _ => false end.
Example C128_ex : cells_changed no_parse
    [transform_data (mkOri 10 8 2 20 8 None)] [(0%nat, 3%nat, CNum 5)] =
  Ok [[Some (mkCell (CNum 10) "test"); Some (mkCell (CNum 8) "test"); Some (mkCell (CNum 2) "test");
       Some (mkCell (CNum 8) "test"); Some (mkCell (CNum 5) ""); Some (mkCell CNull "test")]].
Proof.
  unfold cells_changed. simpl. unfold finalize_row. simpl. destruct (Rlt_dec 5 8); [reflexivity|lra].
Qed.
Example C129_ex : some_color CNull = false /\
  construct_orientation no_parse some_color (transform_data (mkOri 10 8 2 20 8 (Some (CStr "red")))) =
  Some (mkOri 10 8 2 20 8 (Some (CStr "red"))).
Proof. split; reflexivity. Qed.

(** * C130: the selection *)
Definition ids (l : list attitude) : list nat := map at_id l.
(** Those of a list of clicks that count *)
Definition allowed (allow_groups : bool) (l : list attitude) : list attitude :=
  filter (fun d => match at_members d with Some _ => allow_groups | None => true end) l.

Lemma index_spec : forall d l,
  match index_of d l with
  | None => ~ In (at_id d) (ids l)
  | Some i => exists a x b, l = (a ++ x :: b)%list /\ length a = i /\ at_id x = at_id d /\ ~ In (at_id d) (ids a)
  end.
Proof.
  intros d l. unfold index_of.
  assert (G : forall l k, match (fix go l i := match l with [] => None | x :: t => if (at_id x =? at_id d)%nat then Some i else go t (S i) end) l k with
    | None => ~ In (at_id d) (ids l)
    | Some i => exists a x b, l = (a ++ x :: b)%list /\ (k + length a = i)%nat /\ at_id x = at_id d /\ ~ In (at_id d) (ids a)
    end).
  { clear l. induction l as [|x l IH]; intros k; simpl; auto. destruct (Nat.eqb_spec (at_id x) (at_id d)).
    - exists [], x, l. simpl. auto.
    - specialize (IH (S k)). destruct ((fix go l i := match l with [] => None | x :: t => if (at_id x =? at_id d)%nat then Some i else go t (S i) end) l (S k)).
      + destruct IH as (a & y & b & -> & L & E & N). exists (x :: a), y, b. simpl. split; auto. split; [lia|]. split; auto. intros [H|H]; auto.
      + intros [H|H]; auto. }
  specialize (G l 0%nat). destruct ((fix go l i := match l with [] => None | x :: t => if (at_id x =? at_id d)%nat then Some i else go t (S i) end) l 0%nat); auto.
Qed.
Lemma splice_app : forall A (a : list A) x b, splice1 (length a) (a ++ x :: b) = (a ++ b)%list.
Proof. induction a as [|y a IH]; intros; simpl; auto. now rewrite IH. Qed.
Lemma in_ids_dec : forall k l, {In k (ids l)} + {~ In k (ids l)}.
Proof. intros. apply in_dec. apply Nat.eq_dec. Qed.

Lemma select_one_spec : forall al sel d, NoDup (ids sel) ->
  let s' := select_one al sel d in
  NoDup (ids s') /\
  (allowed al [d] = [] -> s' = sel) /\
  (allowed al [d] = [d] -> forall k, In k (ids s') <-> if (at_id d =? k)%nat then ~ In k (ids sel) else In k (ids sel)).
Proof.
  intros al sel d N s'. unfold s', select_one, allowed. simpl.
  destruct (match at_members d with Some _ => negb al | None => false end) eqn:M.
  - assert (F : match at_members d with Some _ => al | None => true end = false).
    { destruct (at_members d); [now apply negb_true_iff|discriminate]. }
    rewrite F. split; [exact N|]. split; [auto|discriminate].
  - assert (F : match at_members d with Some _ => al | None => true end = true).
    { destruct (at_members d); auto. now apply negb_false_iff. }
    rewrite F. pose proof (index_spec d sel) as X. destruct (index_of d sel) as [i|].
    + destruct X as (a & x & b & -> & <- & E & NA). rewrite splice_app. unfold ids in *. rewrite map_app in N. simpl in N.
      split. { rewrite map_app. now apply NoDup_remove_1 in N. }
      split; [discriminate|]. intros _ k. apply NoDup_remove_2 in N. rewrite !map_app in *. simpl.
      rewrite !in_app_iff in *. simpl. destruct (Nat.eqb_spec (at_id d) k).
      * subst k. rewrite <- E. split; [intros H; contradiction | intros H; exfalso; apply H; apply in_or_app; right; left; reflexivity].
      * rewrite in_app_iff. simpl. rewrite E. tauto.
    + split. { unfold ids in *. rewrite map_app. simpl. apply (NoDup_Add (a := at_id d) (l := map at_id sel)).
        - rewrite <- (app_nil_r (map at_id sel)) at 1. apply Add_app.
        - split; auto. }
      split; [discriminate|]. intros _ k. unfold ids in *. rewrite map_app, in_app_iff. simpl.
      destruct (Nat.eqb_spec (at_id d) k); [subst; tauto|tauto].
Qed.

(** Every click toggles: an attitude is selected afterwards if it was and has been
    clicked an even number of times, or was not and has been clicked an odd number of
    times; nothing is selected twice.  Clicks on groups do not count when groups may
    not be selected. *)
Theorem C130_toggle : forall al sel clicks, NoDup (ids sel) ->
  let s' := update_selection al sel clicks in
  NoDup (ids s') /\
  forall k, In k (ids s') <->
    if Nat.odd (occurrences k (ids (allowed al clicks))) then ~ In k (ids sel) else In k (ids sel).
Proof.
  intros al sel clicks. revert sel. unfold update_selection. induction clicks as [|d t IH]; intros sel N; cbn [fold_left].
  - simpl. split; [exact N|]. tauto.
  - destruct (select_one_spec al sel d N) as (N1 & Z & O). destruct (IH _ N1) as (N2 & K). split; [exact N2|].
    intros k. rewrite K. assert (F : allowed al (d :: t) = (allowed al [d] ++ allowed al t)%list).
    { unfold allowed. simpl. destruct (match at_members d with Some _ => al | None => true end); reflexivity. }
    assert (D : allowed al [d] = [] \/ allowed al [d] = [d]).
    { unfold allowed. simpl. destruct (match at_members d with Some _ => al | None => true end); auto. }
    rewrite F. destruct D as [D|D].
    + rewrite D, (Z D). reflexivity.
    + rewrite D. specialize (O D k). cbn [app ids map occurrences]. fold (ids (allowed al t)).
      destruct (Nat.eqb_spec (at_id d) k).
      * rewrite Nat.odd_succ. rewrite <- Nat.negb_odd. destruct (Nat.odd (occurrences k (ids (allowed al t)))); simpl; rewrite O; [|tauto].
        destruct (in_ids_dec k sel); tauto.
      * destruct (Nat.odd _); rewrite O; tauto.
Qed.
(** So the same clicks again restore the selection, as a set. *)
Theorem C130_twice : forall al sel clicks, NoDup (ids sel) ->
  forall k, In k (ids (update_selection al (update_selection al sel clicks) clicks)) <-> In k (ids sel).
Proof.
  intros al sel clicks N k. destruct (C130_toggle al sel clicks N) as (N1 & K1).
  destruct (C130_toggle al _ clicks N1) as (_ & K2). rewrite K2.
  destruct (Nat.odd (occurrences k (ids (allowed al clicks)))) eqn:E; rewrite K1, E; [|tauto].
  destruct (in_ids_dec k sel); tauto.
Qed.
Example C130_ex : ids (update_selection false [] [mkAtt 1 "a" None None; mkAtt 2 "b" (Some []) None; mkAtt 3 "c" None None; mkAtt 1 "a" None None]) = [3%nat].
Proof. reflexivity. Qed.

(** * C131: hovering *)
Lemma find_unique : forall all d, NoDup (map at_uid all) -> In d all -> find_attitude all (at_uid d) = Some d.
Proof.
  intros all d N I. unfold find_attitude. induction all as [|x t IH]; simpl in *; [contradiction|].
  inversion N as [|? ? NI N']; subst. destruct I as [->|I]; [now rewrite String.eqb_refl|].
  destruct (String.eqb_spec (at_uid d) (at_uid x)) as [e|e]; [|auto].
  exfalso. apply NI. rewrite <- e. now apply in_map.
Qed.
(** A member of a group on the page stands for its group; the group is shown with its
    members, in the order it lists them. *)
Theorem C131_group : forall all g m ms members, NoDup (map at_uid all) -> In g all ->
  at_member_of g = None -> at_members g = Some ms ->
  at_member_of m = Some (at_uid g) ->
  map at_uid members = ms -> (forall x, In x members -> In x all) ->
  on_hover all (Some m) = Some (Some g :: map Some members) /\
  on_hover all (Some g) = Some (Some g :: map Some members).
Proof.
  intros all g m ms members N G NG MS MG MU MA.
  assert (F : find_attitudes all ms = map Some members).
  { subst ms. unfold find_attitudes. rewrite map_map. apply map_ext_in. intros x X. apply find_unique; auto. }
  unfold on_hover. rewrite MG, NG, (find_unique all g N G), MS, F. split; reflexivity.
Qed.
(** Otherwise an attitude stands for itself. *)
Theorem C131_single : forall all d, at_members d = None ->
  (forall u, at_member_of d = Some u -> ~ In u (map at_uid all)) -> on_hover all (Some d) = Some [Some d].
Proof.
  intros all d M H. unfold on_hover. destruct (at_member_of d) as [u|] eqn:E; [|now rewrite M].
  assert (F : find_attitude all u = None).
  { unfold find_attitude. destruct (find _ all) as [x|] eqn:Q; auto. apply find_some in Q. destruct Q as [I Q].
    apply String.eqb_eq in Q. exfalso. apply (H u eq_refl). subst u. now apply in_map. }
  now rewrite F, M.
Qed.
(** The list is drawn without error exactly when every member of the group hovered is
    on the page, or all items come before the first that is not. *)
Lemma find_raise : forall hov u, hovered_find hov u = Raise TypeError <->
  exists a b, hov = (a ++ None :: b)%list /\ forall x, In x a -> exists h, x = Some h /\ at_uid h <> u.
Proof.
  induction hov as [|[h|] t IH]; intros u; simpl.
  - split; [discriminate|]. intros ([|? ?] & b & E & _); discriminate.
  - destruct (String.eqb_spec (at_uid h) u).
    + split; [discriminate|]. intros ([|y a] & b & E & X); [discriminate|]. injection E; intros _ <-.
      destruct (X (Some h)) as (h' & Q & NE); [simpl; auto|]. injection Q; intros; subst. contradiction.
    + rewrite IH. split.
      * intros (a & b & -> & X). exists (Some h :: a), b. split; auto. intros x [<-|I]; eauto.
      * intros ([|y a] & b & E & X); [discriminate|]. injection E; intros -> <-. exists a, b. split; auto. intros x I. apply X. simpl; auto.
  - split; auto. intros _. exists [], t. split; auto. intros x [].
Qed.
Theorem C131_list : forall all g ms d, In g all -> at_member_of g = None -> at_members g = Some ms ->
  (item_hovered (on_hover all (Some g)) d = Raise TypeError <->
   at_uid g <> at_uid d /\ exists a u b, ms = (a ++ u :: b)%list /\ ~ In u (map at_uid all) /\
     ~ In (at_uid d) a /\ forall v, In v a -> In v (map at_uid all)).
Proof.
  intros all g ms d G NG MS. unfold on_hover. rewrite NG, MS. unfold item_hovered.
  assert (FS : forall u x, find_attitude all u = Some x -> at_uid x = u /\ In u (map at_uid all)).
  { intros u x Q. unfold find_attitude in Q. apply find_some in Q. destruct Q as [I Q]. apply String.eqb_eq in Q. subst. split; auto. now apply in_map. }
  assert (FN : forall u, find_attitude all u = None <-> ~ In u (map at_uid all)).
  { intros u. split.
    - intros Q I. apply in_map_iff in I. destruct I as (x & X & I). unfold find_attitude in Q.
      apply (find_none _ _ Q) in I. subst u. now rewrite String.eqb_refl in I.
    - intros I. destruct (find_attitude all u) eqn:Q; auto. apply FS in Q. tauto. }
  cbn [hovered_find]. destruct (String.eqb_spec (at_uid g) (at_uid d)) as [e|e].
  - split; [discriminate|tauto].
  - rewrite find_raise. split.
    + intros (a & b & E & X). split; auto. unfold find_attitudes in E.
      apply map_eq_app in E. destruct E as (m1 & m2 & -> & E1 & E2).
      destruct m2 as [|u m2]; [discriminate|]. simpl in E2. injection E2; intros E3 E4.
      exists m1, u, m2. split; auto. split; [now apply FN|]. split.
      * intros I. subst a. destruct (X (find_attitude all (at_uid d))) as (h & Q & NE); [now apply in_map|]. apply FS in Q. tauto.
      * intros v V. subst a. destruct (X (find_attitude all v)) as (h & Q & _); [now apply in_map|]. apply FS in Q. tauto.
    + intros (_ & a & u & b & -> & U & D & V). exists (find_attitudes all a), (find_attitudes all b).
      unfold find_attitudes. rewrite map_app. simpl. split; [now apply FN in U; rewrite U|].
      intros x I. apply in_map_iff in I. destruct I as (v & <- & I).
      destruct (find_attitude all v) as [h|] eqn:Q; [|apply FN in Q; exfalso; apply Q; auto].
      exists h. split; auto. apply FS in Q. destruct Q as [-> _]. intros ->. contradiction.
Qed.
(** Without a missing member the items highlighted are exactly the group and its members; none
    is while nothing is hovered. *)
Theorem C131_lit : forall all g ms d, In g all -> at_member_of g = None -> at_members g = Some ms ->
  (forall u, In u ms -> In u (map at_uid all)) ->
  item_hovered (on_hover all None) d = Ok false /\
  exists b, item_hovered (on_hover all (Some g)) d = Ok b /\ (b = true <-> at_uid d = at_uid g \/ In (at_uid d) ms).
Proof.
  intros all g ms d G NG MS K. split; [reflexivity|]. unfold on_hover. rewrite NG, MS. cbn [item_hovered hovered_find].
  destruct (String.eqb_spec (at_uid g) (at_uid d)) as [e|e]; [exists true; intuition|].
  induction ms as [|u ms IH] in K |- *; cbn [find_attitudes map hovered_find].
  - exists false. split; auto. split; [discriminate|]. intros [E|[]]; congruence.
  - destruct (find_attitude all u) as [x|] eqn:F.
    + unfold find_attitude in F. apply find_some in F. destruct F as [_ F]. apply String.eqb_eq in F.
      destruct (String.eqb_spec (at_uid x) (at_uid d)) as [q|q].
      * exists true. split; auto. split; auto. intros _. right. left. congruence.
      * destruct IH as (b & E & B); [intros v I; apply K; right; auto|]. exists b. split; auto. rewrite B. cbn [In].
        split; [intros [?|?]; auto|]. intros [?|[?|?]]; auto. exfalso. congruence.
    + exfalso. assert (I : In u (map at_uid all)) by (apply K; left; auto). apply in_map_iff in I. destruct I as (x & X & I).
      unfold find_attitude in F. apply (find_none _ _ F) in I. subst u. now rewrite String.eqb_refl in I.
Qed.
Example C131_lit_ex : let all := [mkAtt 0 "g" (Some ["b"]%string) None; mkAtt 1 "b" None (Some "g"%string); mkAtt 2 "c" None None] in
  map (item_hovered (on_hover all (Some (mkAtt 0 "g" (Some ["b"]%string) None)))) all = [Ok true; Ok true; Ok false].
Proof. reflexivity. Qed.
Example C131_ex : exists all g ms d, In g all /\ at_member_of g = None /\ at_members g = Some ms /\
  In d all /\ item_hovered (on_hover all (Some g)) d = Raise TypeError.
Proof.
  exists [mkAtt 0 "g" (Some ["x"; "b"]%string) None; mkAtt 1 "b" None (Some "g"%string)], (mkAtt 0 "g" (Some ["x"; "b"]%string) None),
    ["x"; "b"]%string, (mkAtt 1 "b" None (Some "g"%string)).
  simpl. tauto.
Qed.

Print Assumptions C127_rows.
Print Assumptions C127_plotted.
Print Assumptions C128_finalize.
Print Assumptions C128_changes.
Print Assumptions C128_outside.
Print Assumptions C129_defined.
Print Assumptions C129_round_trip.
Print Assumptions C129_ordered.
Print Assumptions C130_toggle.
Print Assumptions C130_twice.
Print Assumptions C131_group.
Print Assumptions C131_single.
Print Assumptions C131_list.
Print Assumptions C131_lit.
