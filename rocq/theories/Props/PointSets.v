(** C134: sets of points on the sphere. *)
From Coq Require Import Bool Arith List Reals Lia Lra Sorting.Permutation.
From Verif Require Import Model.Prelude Model.PointSets Spec.PointSets Proofs.PointSets.
Import ListNotations.
Open Scope nat_scope.
Open Scope list_scope.

(** C134: random points: as many as asked, on the sphere, each in the direction of its draw *)
Theorem C134_random (draw : nat -> point) n i :
  one_zero draw ->
  let x := snd (pure_random draw n i) in
  length x = n /\ Forall on_sphere x /\
  Forall2 (fun u k => squares (concat (draw k)) <> 0%R -> direction u (draw k)) x (seq i n).
Proof.
  intros Z. unfold pure_random, draws. destruct (normalize_sphere draw Z (map draw (seq i n)) (i + n)) as (S & L & _ & D).
  { intros v I. apply in_map_iff in I. destruct I as (k & <- & I). apply in_seq in I. exists k. split; [lia|reflexivity]. }
  cbn zeta. rewrite map_length, seq_length in L. split; [assumption|]. split; [assumption|].
  assert (G : forall l x, Forall2 (fun u v => squares (concat v) <> 0%R -> direction u v) x (map draw l) ->
    Forall2 (fun u k => squares (concat (draw k)) <> 0%R -> direction u (draw k)) x l).
  { intros l. induction l as [|k l IH]; intros x F; inversion F; subst; constructor; [assumption|]. now apply IH. }
  apply G. exact D.
Qed.
Print Assumptions C134_random.

(** C134: antithetic points: as many as asked; the second half is opposite to the first one; all of them, but the last one of an odd
    number, are on the sphere; the last one of an odd number is a draw *)
Theorem C134_antithetic (draw : nat -> point) n i :
  one_zero draw ->
  let x := snd (antithetic_pm draw n i) in
  length x = n /\
  (forall k v, k < n / 2 -> nth_error x k = Some v -> on_sphere v /\ nth_error x (n / 2 + k) = Some (map (map Ropp) v)) /\
  (Nat.even n = true -> Forall on_sphere x) /\
  (Nat.even n = false -> exists j, i + n / 2 <= j /\ nth_error x (n - 1) = Some (draw j)).
Proof.
  intros Z. unfold antithetic_pm, draws. destruct (normalize_sphere draw Z (map draw (seq i (n / 2))) (i + n / 2)) as (S1 & L & B & _).
  { intros v I. apply in_map_iff in I. destruct I as (k & <- & I). apply in_seq in I. exists k. split; [lia|reflexivity]. }
  rewrite map_length, seq_length in L. cbv beta iota zeta. destruct (normalize draw (i + n / 2) (map draw (seq i (n / 2)))) as [j x]. cbn [fst snd] in *.
  pose proof (Nat.div_mod n 2 ltac:(lia)) as E. pose proof (Nat.mod_upper_bound n 2 ltac:(lia)) as M.
  assert (Lx : length (x ++ map opp x) = 2 * (n / 2)) by (rewrite app_length, map_length; lia).
  assert (Sx : Forall on_sphere (x ++ map opp x)).
  { apply Forall_app. split; [assumption|]. apply Forall_map. eapply Forall_impl; [|exact S1]. exact opp_sphere. }
  assert (H : forall t k v, k < n / 2 -> nth_error ((x ++ map opp x) ++ t) k = Some v ->
    on_sphere v /\ nth_error ((x ++ map opp x) ++ t) (n / 2 + k) = Some (map (map Ropp) v)).
  { intros t k v K Hv. rewrite nth_error_app1 in Hv by lia. rewrite nth_error_app1 in Hv by lia. split.
    - rewrite Forall_forall in S1. apply S1. eapply nth_error_In. eassumption.
    - rewrite nth_error_app1 by lia. rewrite nth_error_app2 by lia. replace (n / 2 + k - length x) with k by lia.
      rewrite nth_error_map, Hv. reflexivity. }
  assert (Ev : Nat.even n = (n mod 2 =? 0)).
  { rewrite E at 1. rewrite Nat.even_add, Nat.even_mul. cbn [Nat.even orb]. destruct (n mod 2) as [|[|]]; try lia; reflexivity. }
  destruct (length (x ++ map opp x) <? n) eqn:Lt; cbn [fst snd].
  - apply Nat.ltb_lt in Lt. refine (conj _ (conj (H _) (conj _ _))).
    + rewrite app_length. cbn [length]. lia.
    + rewrite Ev. intros X. apply Nat.eqb_eq in X. lia.
    + intros _. exists j. split; [assumption|]. rewrite nth_error_app2 by lia. replace (n - 1 - length (x ++ map opp x)) with 0 by lia. reflexivity.
  - apply Nat.ltb_ge in Lt. specialize (H []). rewrite app_nil_r in H. refine (conj _ (conj H (conj (fun _ => Sx) _))); [lia|].
    rewrite Ev. intros X. apply Nat.eqb_neq in X. lia.
Qed.
Print Assumptions C134_antithetic.

(** C134: "antithetic points are on the sphere" is refuted for odd numbers: the last one is not normalized *)
Theorem C134_antithetic_refuted :
  exists draw, (forall i, squares (concat (draw i)) <> 0%R) /\ exists n i, ~ Forall on_sphere (snd (antithetic_pm draw n i)).
Proof.
  exists (fun _ => [[2%R]]). split; [intros _; cbn; lra|]. exists 1, 0. cbn. intros F. inversion F as [|v l H _ E]. unfold on_sphere in H. cbn in H. lra.
Qed.
Print Assumptions C134_antithetic_refuted.

(** C134: rearranged points: the loop ends with as many points as asked, on the sphere, each with the slices of a normalized draw in
    some order, and up to sign only if asked *)
Theorem C134_order draw perms order s n sym fuel i k :
  one_zero draw -> (forall j, length (draw j) = s) -> perms <> [] ->
  (forall p, In p perms -> Permutation p (seq 0 s)) -> (forall j o, In o (order j) -> length o = s) -> n <= fuel ->
  exists x, antithetic_order draw perms order fuel n sym i k [] = Ok x /\ length x = n /\
    Forall (fun a => on_sphere a /\ exists j u, direction u (draw j) /\ on_sphere u /\ rearranged sym a u) x.
Proof.
  intros Z L N P O Fu. apply (order_ok draw perms order s n sym Z L N P O); [|cbn; lia..|constructor].
  intros j u a D S Ra. split; [exact (rearranged_sphere _ _ _ Ra S)|]. now exists j, u.
Qed.
Print Assumptions C134_order.

(** C134: without signs, the first points are all the permutations of the first draw, in order *)
Theorem C134_permutations draw perms order n fuel i k x :
  squares (concat (draw i)) <> 0%R -> length perms <= n ->
  antithetic_order draw perms order fuel n false i k [] = Ok x ->
  exists u, direction u (draw i) /\ on_sphere u /\
    forall j p, nth_error perms j = Some p -> nth_error x j = Some (map (fun q => nth q u []) p).
Proof.
  intros Z L H. exists (div (norm (draw i)) (draw i)). split; [now apply unit_direction|]. split; [now apply unit_sphere|].
  intros j p Hj. assert (J : j < length perms) by (apply nth_error_Some; congruence).
  destruct fuel as [|fuel]; cbn [antithetic_order length] in H; destruct (0 <? n) eqn:E; try discriminate; try (apply Nat.ltb_ge in E; lia).
  destruct (normalize1_sphere draw (S i) (draw i) (or_introl Z)) as (_ & _ & D & _). specialize (D Z).
  destruct (normalize1 draw (S i) (draw i)) as [i1 icx]. cbn [fst snd] in D. destruct D as [_ ->].
  pose proof (add_perms_plain order n (div (norm (draw i)) (draw i)) perms k []) as A.
  destruct (add_perms order n false perms (div (norm (draw i)) (draw i)) k []) as [k1 x1]. cbn [snd app length] in A.
  apply order_prefix in H. destruct H as [t ->]. rewrite A, Nat.sub_0_r, firstn_all2 by assumption.
  rewrite nth_error_app1 by (now rewrite map_length). rewrite nth_error_map, Hj. reflexivity.
Qed.
Print Assumptions C134_permutations.

(** C134: with signs, the first point has the slices of the first draw in the first order, and the next ones change the signs of
    the slices selected by the shuffled choices which select one at least *)
Theorem C134_signs draw p perms order n fuel i k x :
  squares (concat (draw i)) <> 0%R -> Permutation p (seq 0 (length (draw i))) ->
  (forall o, In o (order k) -> length o = length (draw i)) ->
  antithetic_order draw (p :: perms) order fuel n true i k [] = Ok x -> 0 < n ->
  exists u, direction u (draw i) /\ on_sphere u /\ nth_error x 0 = Some (map (fun q => nth q u []) p) /\
    forall j o, S j < n -> nth_error (filter (existsb (fun b => b)) (order k)) j = Some o ->
      exists v, nth_error x (S j) = Some v /\ length v = length p /\
        forall q s, nth_error p q = Some s -> nth_error v q = Some (if nth q o false then map Ropp (nth s u []) else nth s u []).
Proof.
  intros Z Pp O H N. exists (div (norm (draw i)) (draw i)). split; [now apply unit_direction|]. split; [now apply unit_sphere|].
  destruct fuel as [|fuel]; cbn [antithetic_order length] in H; destruct (0 <? n) eqn:E; try discriminate; try (apply Nat.ltb_ge in E; lia).
  destruct (normalize1_sphere draw (S i) (draw i) (or_introl Z)) as (_ & _ & D & _). specialize (D Z).
  destruct (normalize1 draw (S i) (draw i)) as [i1 icx]. cbn [fst snd] in D. destruct D as [_ ->].
  set (u := div (norm (draw i)) (draw i)) in *. cbn [add_perms length] in H. rewrite E in H. cbn zeta in H.
  destruct (add_perms_prefix order n true u perms (S k) (add_flips n (order k) (take_slices p u) ([] ++ [take_slices p u]))) as [t A].
  destruct (add_perms order n true perms u (S k) _) as [k1 x1]. cbn [snd] in A. apply order_prefix_any in H. destruct H as [t' ->].
  rewrite A, add_flips_plain. cbn [app length]. rewrite <- !app_assoc. cbn [app]. split; [reflexivity|].
  intros j o Hj Ho. exists (flip o (take_slices p u)).
  assert (Lp : length p = length (draw i)) by (now rewrite (Permutation_length Pp), seq_length).
  assert (Lo : length o = length p). { rewrite Lp. apply O. apply nth_error_In in Ho. now apply filter_In in Ho. }
  split; [|split].
  - cbn [nth_error]. assert (J : j < length (filter (existsb (fun b => b)) (order k))) by (apply nth_error_Some; congruence).
    rewrite nth_error_app1 by (rewrite map_length, firstn_length; lia). rewrite nth_error_map.
    assert (F : nth_error (firstn (n - 1) (filter (existsb (fun b => b)) (order k))) j = Some o).
    { rewrite <- (firstn_skipn (n - 1) (filter _ (order k))) in Ho. rewrite nth_error_app1 in Ho by (rewrite firstn_length; lia). exact Ho. }
    now rewrite F.
  - unfold flip, take_slices. rewrite map_length, combine_length, map_length. lia.
  - intros q s Hq. apply flip_nth; [unfold take_slices; now rewrite map_length|]. unfold take_slices. now rewrite nth_error_map, Hq.
Qed.
Print Assumptions C134_signs.

Example C134_example :
  let draw := fun i => if i =? 0 then [[0]; [0]]%R else [[3]; [4]]%R in
  let perms := [[0; 1]; [1; 0]] in
  let order := fun _ : nat => [[true; false]; [false; false]] in
  one_zero draw /\ (forall j, length (draw j) = 2) /\ perms <> [] /\ (forall p, In p perms -> Permutation p (seq 0 2)) /\
  (forall j o, In o (order j) -> length o = 2) /\ squares (concat (draw 1)) <> 0%R.
Proof.
  cbn zeta. refine (conj _ (conj _ (conj _ (conj _ (conj _ _))))).
  - intros [|i] [|j]; cbn; intros; try lra; reflexivity.
  - now intros [|j].
  - discriminate.
  - intros p [<-|[<-|[]]]; [reflexivity|apply perm_swap].
  - intros _ o [<-|[<-|[]]]; reflexivity.
  - cbn. lra.
Qed.
