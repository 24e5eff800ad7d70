(** Tours, clusters, maps and landscapes (nevergrad/functions/stsp and mlda). *)
From Coq Require Import List Arith ZArith QArith Bool Lia Lqa Permutation Sorted.
From Verif.Model Require Import Prelude MultiValue Layers Planning Mlda.
From Verif.Spec Require Import Mlda.
From Verif.Proofs Require Import MultiValue Planning Mlda.
Import ListNotations.
Open Scope nat_scope.

(** The loss of a vector is the length of a closed tour through all the cities, once each, in the order of the vector. *)
Theorem C111_tour : forall argsort dist root x, (forall y, sorts y (argsort y)) -> (forall i j, (dist i j == dist j i)%Q) -> x <> [] ->
  exists tour v, Permutation tour (seq 0 (length x)) /\ StronglySorted (fun i j => (key x i <= key x j)%Q) tour
    /\ simulate_stsp argsort dist root false x = Ok v /\ (v == tour_length dist tour)%Q.
Proof.
  intros argsort dist root x A Sym Ne. destruct (A x) as [P Hs]. exists (argsort x).
  unfold simulate_stsp. destruct (argsort x) as [|a l] eqn:E.
  - apply Permutation_length in P. rewrite seq_length in P. destruct x; [congruence|discriminate].
  - eexists. split; [exact P|]. split; [exact Hs|]. split; [reflexivity|]. rewrite tour_steps, (Sym a). ring.
Qed.
Print Assumptions C111_tour.

(** Without a city the evaluation fails. *)
Theorem C111_no_city : forall argsort dist root complex, (forall y, sorts y (argsort y)) ->
  simulate_stsp argsort dist root complex [] = Err IndexError.
Proof.
  intros argsort dist root complex A. destruct (A []) as [P _]. apply Permutation_sym, Permutation_nil in P.
  unfold simulate_stsp. now rewrite P.
Qed.
Print Assumptions C111_no_city.

(** All the tours are reached: some vector has the loss of the tour, whatever the sort. *)
Theorem C111_reach : forall dist root n tour, (forall i j, (dist i j == dist j i)%Q) -> 0 < n -> Permutation tour (seq 0 n) ->
  exists x, length x = n /\ forall argsort, (forall y, sorts y (argsort y)) ->
    exists v, simulate_stsp argsort dist root false x = Ok v /\ (v == tour_length dist tour)%Q.
Proof.
  intros dist root n tour Sym N P. destruct (keys_of_sorts tour n P) as (K & D & L). exists (keys_of tour). split; [exact L|].
  intros argsort A. unfold simulate_stsp. rewrite (sorts_unique _ _ _ D (A _) K).
  destruct tour as [|a l].
  - apply Permutation_length in P. rewrite seq_length in P. cbn in P. lia.
  - eexists. split; [reflexivity|]. rewrite tour_steps, (Sym a). ring.
Qed.
Print Assumptions C111_reach.

(** The loss depends only on the order of the coordinates, when they are distinct: it is the same for all sorts, and after
    all increasing changes of the coordinates. *)
Theorem C111_order : forall argsort argsort' dist root complex x x', (forall y, sorts y (argsort y)) -> (forall y, sorts y (argsort' y)) ->
  distinct x -> length x' = length x ->
  (forall i j, i < length x -> j < length x -> (key x i < key x j)%Q -> (key x' i < key x' j)%Q) ->
  simulate_stsp argsort' dist root complex x' = simulate_stsp argsort dist root complex x.
Proof.
  intros argsort argsort' dist root complex x x' A A' D L M. unfold simulate_stsp.
  rewrite (sorts_unique x (argsort' x') (argsort x) D (sorts_monotone x x' _ L M (A' x')) (A x)). reflexivity.
Qed.
Print Assumptions C111_order.

(** Turning the tour or following it backwards does not change the loss. *)
Theorem C111_turn : forall argsort dist root x x' v v', (forall y, sorts y (argsort y)) -> (forall i j, (dist i j == dist j i)%Q) ->
  (exists l m, argsort x = l ++ m /\ argsort x' = m ++ l) \/ argsort x' = rev (argsort x) ->
  simulate_stsp argsort dist root false x = Ok v -> simulate_stsp argsort dist root false x' = Ok v' -> (v' == v)%Q.
Proof.
  intros argsort dist root x x' v v' A Sym H E E'.
  assert (W : forall y w, simulate_stsp argsort dist root false y = Ok w -> (w == tour_length dist (argsort y))%Q).
  { intros y w. unfold simulate_stsp. destruct (argsort y) as [|a l]; [discriminate|]. intros K. assert (K2 : w = (dist a (last (a :: l) a) + qsum (steps dist (a :: l)))%Q) by congruence.
    rewrite K2, tour_steps, (Sym a). ring. }
  rewrite (W _ _ E), (W _ _ E'). destruct H as [(l & m & -> & ->)| ->]; [apply rotated|now apply reversed].
Qed.
Print Assumptions C111_turn.

(** The complex variant adds a term for the positions of the cities in the vector, and does not have this invariance. *)
Theorem C111_complex_refuted : ~ (forall argsort dist root x x' v v', (forall y, sorts y (argsort y)) -> (forall i j, (dist i j == dist j i)%Q) ->
  (0 < root)%Q -> (exists l m, argsort x = l ++ m /\ argsort x' = m ++ l) ->
  simulate_stsp argsort dist root true x = Ok v -> simulate_stsp argsort dist root true x' = Ok v' -> (v' == v)%Q).
Proof.
  intros H.
  assert (D : forall y : list Q, {o | sorts y o}).
  { intros y. 
    pose (go := fix go (l : list nat) : list nat := match l with [] => [] | a :: l' =>
       (fix ins (o : list nat) : list nat := match o with [] => [a] | b :: o' => if qle (key y a) (key y b) then a :: b :: o' else b :: ins o' end) (go l') end).
    exists (go (seq 0 (length y))). split.
    - generalize (seq 0 (length y)). intros l. induction l as [|a l IH]; [constructor|]. cbn [go].
      rewrite <- IH at 2. generalize (go l). clear. intros o. induction o as [|b o IH]; [reflexivity|].
      destruct (qle (key y a) (key y b)); [reflexivity|]. rewrite IH. constructor.
    - generalize (seq 0 (length y)). intros l. induction l as [|a l IH]; [constructor|]. cbn [go].
      revert IH. generalize (go l). clear. intros o S. induction S as [|b o Hs IH F]; [repeat constructor|].
      destruct (qle (key y a) (key y b)) eqn:E.
      + apply qle_iff in E. constructor; [now constructor|]. constructor; [exact E|]. apply Forall_forall. intros z Hz.
        rewrite Forall_forall in F. specialize (F z Hz). cbn beta in F. lra.
      + apply qle_false in E. constructor; [exact IH|]. apply Forall_forall. intros z Hz.
        assert (K : In z (a :: o)).
        { revert Hz. clear. induction o as [|c o IH]; [auto|]. destruct (qle (key y a) (key y c)); [auto|].
          intros [->|Hz]; [right; now left|]. destruct (IH Hz) as [->|K]; [now left|right; now right]. }
        destruct K as [->|K]; [lra|]. rewrite Forall_forall in F. now apply F. }
  set (argsort := fun y => proj1_sig (D y)).
  assert (A : forall y, sorts y (argsort y)) by (intros y; exact (proj2_sig (D y))).
  destruct (keys_of_sorts [0; 1; 2] 3 (Permutation_refl _)) as (K1 & D1 & _).
  assert (P2 : Permutation [1; 2; 0] (seq 0 3)) by (change (seq 0 3) with ([0] ++ [1; 2]); change [1; 2; 0] with ([1; 2] ++ [0]); apply Permutation_app_comm).
  destruct (keys_of_sorts [1; 2; 0] 3 P2) as (K2 & D2 & _).
  pose proof (sorts_unique _ _ _ D1 (A _) K1) as E1. pose proof (sorts_unique _ _ _ D2 (A _) K2) as E2.
  specialize (H argsort (fun _ _ => 0%Q) 1%Q (keys_of [0; 1; 2]) (keys_of [1; 2; 0])). clearbody argsort.
  unfold simulate_stsp in H. rewrite E1, E2 in H.
  specialize (H _ _ A (fun _ _ => Qeq_refl _) eq_refl (ex_intro _ [0] (ex_intro _ [1; 2] (conj eq_refl eq_refl))) eq_refl eq_refl).
  vm_compute in H. discriminate H.
Qed.
Print Assumptions C111_complex_refuted.

(** The loss of the centers is the cost of the best assignment of the points to them. *)
Theorem C111_clusters : forall points centers, centers <> [] ->
  exists v, kmeans_distance points centers = Ok v
    /\ (exists f, assignment points centers f /\ (v == assigned_cost points centers f)%Q)
    /\ forall f, assignment points centers f -> (v <= assigned_cost points centers f)%Q.
Proof.
  intros points centers H. destruct (kmeans_value points centers H) as (l & E & F). exists (qsum l). split; [exact E|]. split.
  - clear E. induction F as [|p m points l (Hc & _) F IH]; [exists []; split; [split; [reflexivity|constructor]|reflexivity]|].
    destruct IH as (f & (L & B) & Ef). destruct Hc as (c & Ic & ->). apply In_nth with (d := []) in Ic. destruct Ic as (k & Hk & <-).
    exists (k :: f). split; [split; [cbn; now rewrite L|now constructor]|]. unfold assigned_cost. cbn [combine map fst snd].
    change (qsum (?y :: ?k)) with (y + qsum k)%Q. unfold assigned_cost in Ef. rewrite Ef. reflexivity.
  - intros f [L B]. clear E. revert f L B. induction F as [|p m points l (_ & Hc) F IH]; intros f L B.
    + destruct f; [apply Qle_refl|discriminate].
    + destruct f as [|k f]; [discriminate|]. inversion B as [|? ? Bk Bf]; subst. specialize (IH f ltac:(cbn in L; lia) Bf).
      unfold assigned_cost in *. cbn [combine map fst snd]. change (qsum (?y :: ?k)) with (y + qsum k)%Q.
      specialize (Hc (nth k centers []) (nth_In _ _ Bk)). lra.
Qed.
Print Assumptions C111_clusters.

(** More centers never cost more, and neither their order nor repetitions matter. *)
Theorem C111_more_centers : forall points centers centers' v v', centers <> [] -> (forall c, In c centers -> In c centers') ->
  kmeans_distance points centers = Ok v -> kmeans_distance points centers' = Ok v' -> (v' <= v)%Q.
Proof.
  intros points centers centers' v v' Ne Inc E E'.
  destruct (kmeans_value points centers Ne) as (l & El & F).
  destruct (kmeans_value points centers') as (l' & El' & F').
  { intros ->. destruct centers as [|c r]; [congruence|]. destruct (Inc c (or_introl eq_refl)). }
  rewrite El in E. rewrite El' in E'. inversion E; inversion E'; subst. clear E E' El El'.
  revert l' F'. induction F as [|p m points l ((c & Ic & ->) & _) F IH]; intros l' F'; inversion F' as [|? m' ? l2 (_ & Hm) F2]; subst; [apply Qle_refl|].
  change (qsum (?y :: ?k)) with (y + qsum k)%Q. specialize (IH _ F2). specialize (Hm c (Inc c Ic)). lra.
Qed.
Print Assumptions C111_more_centers.

(** The loss is not negative, and zero exactly when each point is at a center. *)
Theorem C111_exact : forall points centers n, centers <> [] -> Forall (fun p => length p = n) points -> Forall (fun c => length c = n) centers ->
  exists v, kmeans_distance points centers = Ok v /\ (0 <= v)%Q
    /\ ((v == 0)%Q <-> forall p, In p points -> exists c, In c centers /\ same_point p c).
Proof.
  intros points centers n Ne Hp Hc. destruct (kmeans_value points centers Ne) as (l & E & F). exists (qsum l). split; [exact E|]. clear E.
  rewrite Forall_forall in Hc. revert Hp. induction F as [|p m points l ((c & Ic & ->) & Hm) F IH]; intros Hp.
  - split; [apply Qle_refl|]. split; [intros _ q []|reflexivity].
  - inversion Hp as [|? ? Lp Hps]; subst. destruct (IH Hps) as [N Z0]. change (qsum (?y :: ?k)) with (y + qsum k)%Q.
    pose proof (sqdist_nonneg p c) as Nc. split; [lra|]. split.
    + intros K q [->|Hq].
      * exists c. split; [exact Ic|]. apply sqdist_zero; [symmetry; now apply Hc|lra].
      * apply Z0; [lra|exact Hq].
    + intros K. destruct (K p (or_introl eq_refl)) as (c' & Ic' & Sc'). apply sqdist_zero in Sc'; [|symmetry; now apply Hc].
      specialize (Hm c' Ic'). assert (Zl : (qsum l == 0)%Q) by (apply Z0; intros q Hq; apply K; now right). lra.
Qed.
Print Assumptions C111_exact.

Theorem C111_no_center : forall p points, kmeans_distance (p :: points) [] = Err ValueError.
Proof. reflexivity. Qed.
Print Assumptions C111_no_center.

(** The loss of a map is not negative, and zero exactly when all the distances are the given proximities, whether or not
    some of these are zero. *)
Theorem C111_sammon : forall prox dists, Forall2 (fun r r' => length r = length r') prox dists ->
  (0 <= sammon_loss prox dists)%Q /\ ((sammon_loss prox dists == 0)%Q <-> Forall2 (Forall2 Qeq) prox dists).
Proof.
  intros prox dists H. split.
  - apply qsum_nonneg. apply Forall_forall. intros x Hx. apply in_map_iff in Hx. destruct Hx as (r & <- & _). apply (sammon_row_nonneg r).
  - apply (pairs_zero _ _ sammon_row (Forall2 Qeq) sammon_row_nonneg). induction H; constructor; auto. now apply sammon_row_zero.
Qed.
Print Assumptions C111_sammon.

(** The value of a landscape: that of the nearest pixel, which is never negative. *)
Theorem C111_pixel : forall image rows columns x y i j, sized image rows columns -> i < rows -> j < columns -> nearest x i -> nearest y j ->
  exists v, pixel_value image columns x y = Some v
    /\ (v == image_max image - nth j (nth i image []) 0)%Q /\ (0 <= v)%Q.
Proof.
  intros image rows columns x y i j Sz Hi Hj Nx Ny. apply nearest_rounds in Nx. apply nearest_rounds in Ny.
  unfold pixel_value. rewrite Nx, Ny, !Nat2Z.id. destruct Sz as [L F].
  destruct (Z.ltb_spec (Z.min (Z.of_nat i) (Z.of_nat j)) 0); [lia|].
  destruct (Z.leb_spec (Z.of_nat (length image)) (Z.of_nat i)); [lia|]. destruct (Z.leb_spec (Z.of_nat columns) (Z.of_nat j)); [lia|].
  cbn [orb]. eexists. split; [reflexivity|]. split; [reflexivity|].
  pose proof (image_max_ge image _ (pixel_in image rows columns i j (conj L F) Hi Hj)). lra.
Qed.
Print Assumptions C111_pixel.

(** Elsewhere it is infinite. *)
Theorem C111_outside : forall image rows columns x y, sized image rows columns ->
  (forall i j, i < rows -> j < columns -> nearest x i -> ~ nearest y j) -> pixel_value image columns x y = None.
Proof.
  intros image rows columns x y [L F] H. unfold pixel_value.
  destruct (Z.ltb_spec (Z.min (round_half_even x) (round_half_even y)) 0) as [K|K]; [reflexivity|].
  destruct (Z.leb_spec (Z.of_nat (length image)) (round_half_even x)) as [K1|K1]; [reflexivity|].
  destruct (Z.leb_spec (Z.of_nat columns) (round_half_even y)) as [K2|K2]; [reflexivity|]. exfalso.
  apply (H (Z.to_nat (round_half_even x)) (Z.to_nat (round_half_even y))); try lia; apply nearest_rounds; lia.
Qed.
Print Assumptions C111_outside.

(** The minimum, 0, is reached at the greatest pixel. *)
Theorem C111_summit : forall image rows columns, sized image rows columns -> 0 < rows -> 0 < columns ->
  exists i j v, i < rows /\ j < columns /\ pixel_value image columns (qnat i) (qnat j) = Some v /\ (v == 0)%Q.
Proof.
  intros image rows columns Sz Hr Hc.
  assert (Ne : concat image <> []).
  { intros K. pose proof (pixel_in image rows columns 0 0 Sz Hr Hc) as I. rewrite K in I. destruct I. }
  pose proof (image_max_in image Ne) as I. apply in_concat in I. destruct I as (r & Ir & Im).
  apply In_nth with (d := []) in Ir. destruct Ir as (i & Hi & <-). apply In_nth with (d := 0%Q) in Im. destruct Im as (j & Hj & Ej).
  destruct Sz as [L F]. assert (Lj : length (nth i image []) = columns).
  { rewrite Forall_forall in F. apply F. now apply nth_In. }
  assert (N : forall k, nearest (qnat k) k) by (intros k; left; split; lra).
  destruct (C111_pixel image rows columns (qnat i) (qnat j) i j (conj L F) ltac:(lia) ltac:(lia) (N i) (N j)) as (v & Ev & V & _).
  exists i, j, v. split; [lia|]. split; [lia|]. split; [exact Ev|]. rewrite V, Ej. ring.
Qed.
Print Assumptions C111_summit.

(** The border: half a pixel before the first row is inside; half a pixel after the last one is inside exactly when the number
    of rows is odd. *)
Theorem C111_border : forall image rows columns y j, sized image rows columns -> 0 < rows -> j < columns -> nearest y j ->
  pixel_value image columns (- (1 # 2)) y <> None
  /\ (pixel_value image columns (qnat rows - (1 # 2)) y = None <-> Nat.even rows = true).
Proof.
  intros image rows columns y j Sz Hr Hj Ny. split.
  - destruct (C111_pixel image rows columns (- (1 # 2)) y 0 j Sz Hr Hj) as (v & -> & _); [|exact Ny|discriminate].
    right. split; [reflexivity|]. left. rewrite qnat_0. reflexivity.
  - destruct (Nat.even rows) eqn:Ev; split; try reflexivity; try discriminate.
    + intros _. apply (C111_outside image rows); [exact Sz|]. intros i k Hi Hk Ni _. apply nearest_rounds in Ni.
      assert (Nr : nearest (qnat rows - (1 # 2)) rows) by (right; split; [exact Ev|left; reflexivity]).
      apply nearest_rounds in Nr. rewrite Nr in Ni. lia.
    + intros K. destruct rows as [|r]; [lia|].
      destruct (C111_pixel image (S r) columns (qnat (S r) - (1 # 2)) y r j Sz (le_n _) Hj) as (v & E & _); [|exact Ny|congruence].
      right. rewrite Nat.even_succ, <- Nat.negb_even in Ev. split; [now destruct (Nat.even r)|]. right. rewrite qnat_S. ring.
Qed.
Print Assumptions C111_border.

Example C111_clusters_case : match kmeans_distance [[0%Q; 0%Q]; [3%Q; 4%Q]; [3%Q; 3%Q]] [[3%Q; 4%Q]; [0%Q; 1%Q]] with Ok v => Qred v | _ => 0%Q end = 2%Q.
Proof. vm_compute. reflexivity. Qed.
Example C111_pixel_case : pixel_value [[1; 5; 2]; [7; 3; 4]]%Q 3 (1 # 2) (3 # 2) = Some 5%Q /\ sized [[1; 5; 2]; [7; 3; 4]]%Q 2 3
  /\ nearest (1 # 2) 0 /\ nearest (3 # 2) 2.
Proof.
  split; [vm_compute; reflexivity|]. split; [repeat constructor|].
  split; apply nearest_rounds; vm_compute; reflexivity.
Qed.
Example C111_tour_case : let dist := fun i j => if (i =? j)%nat then 0%Q else 1%Q in Qeq (tour_length dist [2; 0; 1]) 3
  /\ simulate_stsp (fun _ => [2; 0; 1]) dist 2 true [5; 7; 1]%Q = Ok (1 + (1 + (1 + 0)) + 5 / 2)%Q /\ sorts [5; 7; 1]%Q [2; 0; 1]%nat /\ distinct [5; 7; 1]%Q.
Proof.
  split; [reflexivity|]. split; [reflexivity|]. split.
  - split; [apply (Permutation_app_comm [2] [0; 1])|]. repeat constructor; vm_compute; discriminate.
  - intros [|[|[|i]]] [|[|[|j]]]; cbn; intros; try lia; try reflexivity; try discriminate.
Qed.

(** The complex variant adds the squares of the differences between the numbers of consecutive cities, from the first city to the last
    one, divided by [root]. *)
Theorem C111_complex : forall argsort dist root x v, simulate_stsp argsort dist root false x = Ok v ->
  exists v', simulate_stsp argsort dist root true x = Ok v'
    /\ (v' == v + qsum (map (fun i => square (inject_Z (Z.of_nat (nth (S i) (argsort x) 0%nat)) - inject_Z (Z.of_nat (nth i (argsort x) 0%nat)))) (seq 0 (length (argsort x) - 1)%nat)) / root)%Q.
Proof.
  intros argsort dist root x v E. unfold simulate_stsp in *. destruct (argsort x) as [|a l]; [discriminate E|]. injection E as <-. eexists. split; [reflexivity|].
  apply Qplus_comp; [reflexivity|]. unfold Qdiv. apply Qmult_comp; [|reflexivity]. cbn [length]. rewrite Nat.sub_succ, Nat.sub_0_r. revert a.
  induction l as [|b l IH]; intros a; [reflexivity|].
  change (diffs (a :: b :: l)) with (((Z.of_nat b - Z.of_nat a) * (Z.of_nat b - Z.of_nat a))%Z :: diffs (b :: l)). cbn [fold_right length seq map].
  change (qsum (?x :: ?l)) with (x + qsum l)%Q. rewrite inject_Z_plus, IH. apply Qplus_comp.
  - cbn [nth]. unfold square. rewrite inject_Z_mult. unfold Zminus. rewrite inject_Z_plus, inject_Z_opp. ring.
  - rewrite <- seq_shift, map_map. reflexivity.
Qed.
Print Assumptions C111_complex.
