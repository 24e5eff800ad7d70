(** Proofs about artificial functions *)
From Coq Require Import Reals Lra Lia Psatz Arith ZArith Bool List Sorted Permutation.
From Verif.Model Require Import Prelude CoreFuncs Artificial.
From Verif.Model Require Nsga2 Tools Mutation.
From Verif.Spec Require Import CoreFuncs Artificial.
From Verif.Proofs Require Import CoreFuncs.
From Verif.Proofs Require Tools Nsga2.
Import ListNotations.
Open Scope R_scope.

(** ** Results of lists *)
Lemma map_result_spec {A B} (f : A -> result B) (P : A -> B -> Prop) l :
  (forall a, In a l -> exists b, f a = Ok b /\ P a b) -> exists bs, Mutation.map_result f l = Ok bs /\ Forall2 P l bs.
Proof.
  induction l as [|a l IH]; intros H; [exists []; split; [reflexivity|constructor]|]. cbn.
  destruct (H a (or_introl eq_refl)) as (b & E & Hb). destruct IH as (bs & E' & Hbs); [intros; apply H; now right|].
  rewrite E. cbn. rewrite E'. cbn. exists (b :: bs). split; [reflexivity|now constructor].
Qed.
Lemma map_result_ext {A B} (f g : A -> result B) l : (forall a, In a l -> f a = g a) -> Mutation.map_result f l = Mutation.map_result g l.
Proof.
  induction l as [|a l IH]; intros H; [reflexivity|]. cbn. rewrite H by now left. rewrite IH by (intros; apply H; now right). reflexivity.
Qed.
Lemma map_result_map {A B C} (f : B -> result C) (g : A -> B) l : Mutation.map_result f (map g l) = Mutation.map_result (fun a => f (g a)) l.
Proof. induction l as [|a l IH]; [reflexivity|]. cbn. now rewrite IH. Qed.
Lemma Forall2_len {A B} (P : A -> B -> Prop) l m : Forall2 P l m -> length l = length m.
Proof. induction 1; cbn; auto. Qed.
Lemma Forall2_nth {A B} (P : A -> B -> Prop) l m k a b : Forall2 P l m -> nth_error l k = Some a -> nth_error m k = Some b -> P a b.
Proof.
  intros H. revert k. induction H as [|x y l m Hxy _ IH]; intros [|k]; cbn; try discriminate.
  - now intros [= <-] [= <-].
  - apply IH.
Qed.

(** ** Sums *)
Lemma upto_ext n f g : (forall k, (k < n)%nat -> f k = g k) -> upto n f = upto n g.
Proof. induction n as [|n IH]; intros H; [reflexivity|]. cbn. rewrite IH by (intros; apply H; lia). now rewrite H by lia. Qed.
Lemma upto_plus n f g : upto n (fun k => f k + g k) = upto n f + upto n g.
Proof. induction n as [|n IH]; cbn; [lra|rewrite IH; lra]. Qed.
Lemma upto_scale n c f : upto n (fun k => c * f k) = c * upto n f.
Proof. induction n as [|n IH]; cbn; [lra|rewrite IH; lra]. Qed.
Lemma upto_zero n : upto n (fun _ => 0) = 0.
Proof. induction n as [|n IH]; cbn; [lra|rewrite IH; lra]. Qed.
Lemma upto_swap n m f : upto n (fun i => upto m (fun j => f i j)) = upto m (fun j => upto n (fun i => f i j)).
Proof.
  induction n as [|n IH]; cbn; [now rewrite upto_zero|]. rewrite IH. now rewrite <- upto_plus.
Qed.
Lemma upto_delta n i f : (i < n)%nat -> upto n (fun k => delta i k * f k) = f i.
Proof.
  unfold delta. induction n as [|n IH]; intros H; [lia|]. cbn. destruct (Nat.eqb_spec i n) as [->|N].
  - rewrite (upto_ext n _ (fun _ => 0)); [rewrite upto_zero; lra|]. intros k Hk. destruct (Nat.eqb_spec n k); [lia|lra].
  - rewrite IH by lia. lra.
Qed.
Lemma upto_shift n f : upto (S n) f = f 0%nat + upto n (fun k => f (S k)).
Proof. induction n as [|n IH]; cbn in *; [lra|]. rewrite IH. lra. Qed.
Lemma dot_upto u v d : length u = d -> length v = d -> dot u v = upto d (fun k => nth k u 0 * nth k v 0).
Proof.
  revert v d. induction u as [|a u IH]; intros [|b v] d <-; try discriminate; [reflexivity|]. intros L.
  unfold dot in *. cbn [combine map rsum length fst snd]. rewrite upto_shift. cbn [nth]. f_equal. apply IH; [reflexivity|]. now injection L.
Qed.
Lemma mat_vec_nth m y d i : square d m -> length y = d -> (i < d)%nat -> nth i (mat_vec m y) 0 = upto d (fun k => entry m i k * nth k y 0).
Proof.
  intros (L & Hr) Hy Hi. unfold mat_vec. rewrite (nth_indep _ 0 (dot [] y)) by (rewrite map_length; lia).
  rewrite (map_nth (fun row => dot row y)). unfold entry. apply dot_upto; [|exact Hy]. apply Hr, nth_In. lia.
Qed.
Lemma nth_ext_eq (x y : list R) d : length x = d -> length y = d -> (forall i, (i < d)%nat -> nth i x 0 = nth i y 0) -> x = y.
Proof. intros Hx Hy H. apply (nth_ext _ _ 0 0); [congruence|]. intros i Hi. apply H. lia. Qed.
Lemma orthogonal_solve m d y o : orthogonal d m -> length y = d -> length o = d ->
  (mat_vec m y = o <-> forall j, (j < d)%nat -> nth j y 0 = upto d (fun k => entry m k j * nth k o 0)).
Proof.
  intros (S & Hrows & Hcols) Hy Ho. assert (Lm : length (mat_vec m y) = d) by (unfold mat_vec; rewrite map_length; apply S). split.
  - intros <- j Hj.
    transitivity (upto d (fun i => entry m i j * upto d (fun k => entry m i k * nth k y 0))).
    2:{ apply upto_ext. intros i Hi. f_equal. symmetry. now apply mat_vec_nth. }
    transitivity (upto d (fun i => upto d (fun k => entry m i j * entry m i k * nth k y 0))).
    2:{ apply upto_ext. intros i Hi. rewrite <- upto_scale. apply upto_ext. intros k Hk. lra. }
    rewrite upto_swap. transitivity (upto d (fun k => delta j k * nth k y 0)).
    { symmetry. now apply (upto_delta d j (fun k => nth k y 0)). }
    apply upto_ext. intros k Hk. rewrite <- (Hcols j k Hj Hk), Rmult_comm, <- upto_scale. apply upto_ext. intros i Hi. lra.
  - intros H. apply (nth_ext_eq _ _ d Lm Ho). intros i Hi. rewrite (mat_vec_nth m y d i S Hy Hi).
    transitivity (upto d (fun k => upto d (fun l => entry m i k * entry m l k * nth l o 0))).
    { apply upto_ext. intros k Hk. rewrite (H k Hk), <- upto_scale. apply upto_ext. intros l Hl. lra. }
    rewrite upto_swap. transitivity (upto d (fun l => delta i l * nth l o 0)).
    2:{ now apply (upto_delta d i (fun k => nth k o 0)). }
    apply upto_ext. intros l Hl. rewrite <- (Hrows i l Hi Hl), Rmult_comm, <- upto_scale. apply upto_ext. intros k Hk. lra.
Qed.

(** ** Transforms *)
Definition shaped (d dim : nat) (t : transform) : Prop :=
  length (t_indices t) = d /\ (forall i, In i (t_indices t) -> (i < dim)%nat) /\ length (t_translation t) = d /\
  match t_rotation t with None => True | Some m => orthogonal d m end.
Lemma select_spec x ind : (forall i, In i ind -> (i < length x)%nat) -> select x ind = Ok (map (fun i => nth i x 0) ind).
Proof.
  unfold select. induction ind as [|i ind IH]; intros H; [reflexivity|]. cbn.
  destruct (nth_error x i) as [a|] eqn:E; [|apply nth_error_None in E; specialize (H i (or_introl eq_refl)); lia]. cbn.
  rewrite IH by (intros; apply H; now right). cbn. now rewrite (nth_error_nth x i 0 E).
Qed.
Lemma select_error x ind i : In i ind -> (length x <= i)%nat -> select x ind = Err IndexError.
Proof.
  unfold select. induction ind as [|j ind IH]; [intros []|]. intros [-> | Hi] L; cbn.
  - apply nth_error_None in L. now rewrite L.
  - destruct (nth_error x j); cbn; [|reflexivity]. now rewrite IH.
Qed.
Lemma minus_nth x y i : length x = length y -> (i < length x)%nat -> nth i (minus x y) 0 = nth i x 0 - nth i y 0.
Proof.
  revert y i. induction x as [|a x IH]; intros [|b y] [|i] L H; cbn in *; try lia; try discriminate; [reflexivity|]. apply IH; lia.
Qed.
Lemma apply_spec d dim t x o : shaped d dim t -> length x = dim -> length o = d ->
  exists y, apply_transform t x = Ok y /\ length y = d /\
    (y = o <-> forall j, (j < d)%nat -> nth (nth j (t_indices t) 0%nat) x 0 = sent_to d t o j).
Proof.
  intros (L & I & T & M) Hx Ho. unfold apply_transform. rewrite select_spec by (intros i Hi; rewrite Hx; now apply I). cbn [bind].
  set (s := map (fun i => nth i x 0) (t_indices t)). assert (Ls : length s = d) by (unfold s; now rewrite map_length).
  assert (Lm : length (minus s (t_translation t)) = d) by (rewrite minus_length; lia).
  assert (Hs : forall j, (j < d)%nat -> nth j s 0 = nth (nth j (t_indices t) 0%nat) x 0).
  { intros j Hj. unfold s. rewrite (nth_indep _ 0 (nth 0%nat x 0)) by (rewrite map_length; lia). apply (map_nth (fun i => nth i x 0)). }
  eexists. split; [reflexivity|]. unfold sent_to. destruct (t_rotation t) as [m|].
  - split; [unfold mat_vec; rewrite map_length; apply M|]. rewrite (orthogonal_solve m d _ o M Lm Ho).
    split; intros H j Hj; specialize (H j Hj); rewrite minus_nth in * by lia; rewrite Hs in * by exact Hj; lra.
  - split; [exact Lm|]. split.
    + intros H j Hj. rewrite <- H, minus_nth by lia. rewrite Hs by exact Hj. lra.
    + intros H. apply (nth_ext_eq _ _ d Lm Ho). intros j Hj. rewrite minus_nth by lia. rewrite Hs, H by exact Hj. lra.
Qed.

(** ** Aggregates *)
Lemma fold_max_ge l r : r <= fold_left Rmax l r /\ (forall a, In a l -> a <= fold_left Rmax l r).
Proof.
  revert r. induction l as [|b l IH]; intros r; cbn [fold_left]; [split; [lra|easy]|]. destruct (IH (Rmax r b)) as (H1 & H2).
  pose proof (Rmax_l r b). pose proof (Rmax_r r b). split; [lra|]. intros a [<-|Ha]; [lra|now apply H2].
Qed.
Lemma fold_max_in l r : In (fold_left Rmax l r) (r :: l).
Proof.
  revert r. induction l as [|b l IH]; intros r; cbn [fold_left]; [now left|]. destruct (IH (Rmax r b)) as [H|H].
  - rewrite <- H. unfold Rmax. destruct (Rle_dec r b); cbn; auto.
  - cbn. auto.
Qed.
Lemma sum_ge v l : (forall r, In r l -> v <= r) -> INR (length l) * v <= rsum l /\ (rsum l = INR (length l) * v <-> forall r, In r l -> r = v).
Proof.
  induction l as [|a l IH]; intros H; [cbn; split; [lra|split; [intros _ r []|intros _; lra]]|].
  destruct IH as (I1 & I2); [intros; apply H; now right|]. cbn [rsum length]. rewrite S_INR. specialize (H a (or_introl eq_refl)). split; [lra|]. split.
  - intros E. assert (a = v) by lra. assert (rsum l = INR (length l) * v) by lra. intros r [<-|Hr]; [exact H0|]. now apply I2.
  - intros E. rewrite (E a) by now left. rewrite (proj2 I2) by (intros; apply E; now right). lra.
Qed.
Lemma aggregate_spec a l v : l <> [] -> (forall r, In r l -> v <= r) ->
  exists r, aggregate a l = Ok r /\ combined a (length l) v <= r /\ (r = combined a (length l) v <-> forall r, In r l -> r = v).
Proof.
  intros Hl H. destruct l as [|b l]; [easy|]. unfold aggregate. eexists. split; [reflexivity|]. destruct a; cbn [combined].
  - destruct (fold_max_ge l b) as (G1 & G2). pose proof (fold_max_in l b) as In_. split; [specialize (H b (or_introl eq_refl)); lra|]. split.
    + intros E r Hr. apply Rle_antisym; [|now apply H]. rewrite <- E. destruct Hr as [<-|Hr]; [exact G1|now apply G2].
    + intros E. now apply E.
  - destruct (sum_ge v (b :: l) H) as (S1 & S2). assert (P : 0 < INR (length (b :: l))) by (apply lt_0_INR; cbn; lia). split.
    + apply Rmult_le_reg_r with (INR (length (b :: l))); [exact P|]. unfold Rdiv. rewrite Rmult_assoc, Rinv_l by lra. lra.
    + rewrite <- S2. split; intros E.
      * rewrite <- E. field. lra.
      * rewrite E. field. lra.
  - apply sum_ge. exact H.
Qed.

(** ** Initialization *)
Lemma sorted_seq l n : StronglySorted lt l -> length l = n -> (forall i, In i l -> (i < n)%nat) -> l = seq 0 n.
Proof.
  enough (G : forall a l, StronglySorted lt l -> (forall i, In i l -> (a <= i < a + length l)%nat) -> l = seq a (length l)).
  { intros So <- H. apply G; [exact So|]. intros i Hi. specialize (H i Hi). lia. }
  clear. intros a l. revert a. induction l as [|x l IH]; intros a So H; [reflexivity|]. apply StronglySorted_inv in So as (So & F).
  rewrite Forall_forall in F.
  assert (B : forall l x b, StronglySorted lt l -> (forall i, In i l -> (x < i < b)%nat) -> (length l + x < b \/ l = [])%nat).
  { clear. induction l as [|y l IH]; intros x b So H; [now right|left]. apply StronglySorted_inv in So as (So & F). rewrite Forall_forall in F.
    pose proof (H y (or_introl eq_refl)). destruct (IH y b So) as [G| ->]; [|cbn; lia|cbn; lia].
    intros i Hi. specialize (F i Hi). specialize (H i (or_intror Hi)). lia. }
  assert (x = a).
  { pose proof (H x (or_introl eq_refl)) as Hx. cbn [length] in *. destruct (B l x (a + S (length l))%nat So) as [G| ->]; [|lia|cbn in *; lia].
    intros i Hi. specialize (F i Hi). specialize (H i (or_intror Hi)). lia. }
  subst x. cbn [length seq]. f_equal. apply IH; [exact So|]. intros i Hi. specialize (F i Hi). specialize (H i (or_intror Hi)). cbn in H. lia.
Qed.
Lemma sort_lt l : NoDup l -> StronglySorted lt (Nsga2.stable_sort Nat.leb l) /\ Permutation (Nsga2.stable_sort Nat.leb l) l.
Proof.
  intros N. pose proof (Proofs.Nsga2.sort_perm Nat.leb l) as P. split; [|exact P].
  assert (S : StronglySorted (fun x y => Nat.leb x y = true) (Nsga2.stable_sort Nat.leb l)).
  { apply Proofs.Nsga2.sort_sorted.
    - intros x y. destruct (Nat.leb_spec x y), (Nat.leb_spec y x); auto; lia.
    - intros x y z Hx Hy. apply Nat.leb_le in Hx, Hy. apply Nat.leb_le. lia. }
  assert (N' : NoDup (Nsga2.stable_sort Nat.leb l)) by (eapply Permutation_NoDup; [apply Permutation_sym, P|exact N]).
  clear P N. revert N'. generalize (Nsga2.stable_sort Nat.leb l), S. clear. intros l S. induction S as [|a l S IH F]; intros N; constructor.
  - inversion N; auto.
  - inversion_clear N as [|? ? N1 N2]. rewrite Forall_forall in *. intros b Hb. specialize (F b Hb). apply Nat.leb_le in F.
    destruct (Nat.eq_dec a b) as [->|]; [easy|lia].
Qed.
Lemma concat_len {A} (l : list (list A)) d : Forall (fun g => length g = d) l -> length (concat l) = (length l * d)%nat.
Proof. induction 1 as [|g l Hg _ IH]; [reflexivity|]. cbn. rewrite app_length, IH, Hg. lia. Qed.
Lemma groups_spec l d n : (0 < d)%nat -> length l = (d * n)%nat ->
  exists groups, Tools.grouper l d 0%nat = Ok groups /\ length groups = n /\ Forall (fun g => length g = d) groups /\ concat groups = l.
Proof.
  intros Hd L. unfold Tools.grouper. destruct (Nat.eqb_spec d 0); [lia|].
  destruct (Proofs.Tools.zl_loop_spec 0%nat d (S (S (length l))) l Hd ltac:(lia)) as (gs & E & F & pad & Hp & C). exists gs. split; [exact E|].
  pose proof (concat_len gs d F) as Lc. rewrite C, app_length, repeat_length, L in Lc.
  assert (Z : pad = 0%nat). { assert (pad = (length gs - n) * d)%nat by nia. destruct (length gs - n)%nat; nia. }
  subst pad. cbn [repeat] in C. rewrite app_nil_r in C. split; [nia|]. split; [exact F|exact C].
Qed.
Lemma nth_error_eq {A} (l m : list A) : (forall k, nth_error l k = nth_error m k) -> l = m.
Proof.
  revert m. induction l as [|a l IH]; intros [|b m] H; [reflexivity|specialize (H 0%nat); discriminate|specialize (H 0%nat); discriminate|].
  pose proof (H 0%nat) as H0. injection H0 as ->. f_equal. apply IH. intros k. exact (H (S k)).
Qed.
Lemma indexed_nth {A} (l : list A) k : nth_error (indexed l) k = option_map (fun a => (k, a)) (nth_error l k).
Proof.
  unfold indexed. enough (G : forall a, nth_error (combine (seq a (length l)) l) k = option_map (fun x => ((a + k)%nat, x)) (nth_error l k)) by apply (G 0%nat).
  revert k. induction l as [|x l IH]; intros [|k] a; cbn; try reflexivity; [now rewrite Nat.add_0_r|]. rewrite IH. now rewrite Nat.add_succ_r.
Qed.
Definition made (s : settings) (rnd : nat -> list R * list (list R)) (ig : nat * list nat) (t : transform) : Prop :=
  t = {| t_indices := snd ig; t_translation := map (fun z => z ^ s_expo s * s_factor s) (fst (rnd (fst ig)));
         t_rotation := if s_rotation s then Some (snd (rnd (fst ig))) else None |}.
Lemma check_spec s : check s = Ok tt <->
  0 <= s_noise s /\ (1 <= s_block_dimension s)%Z /\ (1 <= s_num_blocks s)%Z /\ (0 <= s_useless s)%Z /\
  (s_split s = true -> s_hashing s = false /\ s_useless s = 0%Z).
Proof.
  unfold check. destruct (Rlt_dec (s_noise s) 0) as [H|H]; [split; [discriminate|intros (? & _); lra]|].
  destruct (Z.ltb_spec (s_block_dimension s) 1); [split; [discriminate|lia]|].
  destruct (Z.ltb_spec (s_num_blocks s) 1); [split; [discriminate|lia]|].
  destruct (Z.ltb_spec (s_useless s) 0); [split; [discriminate|lia]|].
  destruct (s_split s); cbn [andb].
  - destruct (s_hashing s); cbn [orb]; [split; [discriminate|intros (_ & _ & _ & _ & G); destruct (G eq_refl); discriminate]|].
    destruct (Z.eqb_spec (s_useless s) 0) as [E|E]; cbn [negb].
    + split; [intros _|reflexivity]. split; [lra|auto].
    + split; [discriminate|]. intros (_ & _ & _ & _ & G). now destruct (G eq_refl).
  - split; [intros _|reflexivity]. split; [lra|]. repeat split; try assumption; discriminate.
Qed.
Lemma variable_dim s : check s = Ok tt -> v_dimension (variable_of s) = dim s.
Proof. intros H. apply check_spec in H as (_ & H1 & H2 & H3 & _). cbn. unfold dim, bd, nb. rewrite Z2Nat.inj_add, Z2Nat.inj_mul by lia. reflexivity. Qed.
Lemma init_spec s drawn rnd : check s = Ok tt -> choice_without_replacement (dim s) (bd s * nb s) drawn ->
  exists ts, initialize (variable_of s) drawn rnd = Ok ts /\ length ts = nb s /\
    (forall k t, nth_error ts k = Some t -> length (t_indices t) = bd s /\ made s rnd (k, t_indices t) t) /\
    StronglySorted lt (concat (map t_indices ts)) /\ Permutation (concat (map t_indices ts)) drawn.
Proof.
  intros C (N & L & _). apply check_spec in C as (_ & H1 & H2 & H3 & _). destruct (sort_lt drawn N) as (S & P).
  unfold initialize. cbn [v_block_dimension variable_of v_factor v_rotated v_expo]. fold (bd s).
  assert (Hb : (0 < bd s)%nat) by (unfold bd; lia).
  destruct (groups_spec (Nsga2.stable_sort Nat.leb drawn) (bd s) (nb s) Hb) as (gs & E & Lg & F & Cg).
  { rewrite (Permutation_length P). exact L. }
  rewrite E. cbn [bind]. rewrite Forall_forall in F.
  destruct (map_result_spec (fun ig : nat * list nat => make_transform (snd ig) (s_factor s) (s_rotation s) (s_expo s) (fst (rnd (fst ig))) (snd (rnd (fst ig)))) (made s rnd) (indexed gs)) as (ts & Et & Ft).
  { intros (k & g) Hi. apply In_nth_error in Hi as (k' & Hk). rewrite indexed_nth in Hk. destruct (nth_error gs k') as [g'|] eqn:Hg; [|discriminate].
    injection Hk as <- <-. apply nth_error_In in Hg. specialize (F g' Hg). unfold make_transform. cbn [snd fst].
    destruct g' as [|i g']; [cbn in F; lia|]. eexists. split; reflexivity. }
  exists ts. split; [exact Et|].
  assert (Lt : length ts = nb s). { rewrite <- (Forall2_len _ _ _ Ft). unfold indexed. rewrite combine_length, seq_length. lia. }
  split; [exact Lt|].
  assert (Hm : forall k t, nth_error ts k = Some t -> exists g, nth_error gs k = Some g /\ made s rnd (k, g) t).
  { intros k t Hk. destruct (nth_error gs k) as [g|] eqn:Hg.
    - exists g. split; [reflexivity|]. eapply Forall2_nth; [exact Ft| |exact Hk]. now rewrite indexed_nth, Hg.
    - apply nth_error_None in Hg. assert (nth_error ts k <> None) by congruence. apply nth_error_Some in H. lia. }
  assert (Ei : map t_indices ts = gs).
  { apply nth_error_eq. intros k. rewrite nth_error_map. destruct (nth_error ts k) as [t|] eqn:Hk; cbn.
    - destruct (Hm k t Hk) as (g & -> & M). now rewrite M.
    - apply nth_error_None in Hk. symmetry. apply nth_error_None. lia. }
  split; [|split].
  - intros k t Hk. destruct (Hm k t Hk) as (g & Hg & M). assert (Eg : t_indices t = g) by now rewrite M. rewrite Eg.
    split; [apply F; now apply nth_error_In in Hg|exact M].
  - rewrite Ei, Cg. exact S.
  - rewrite Ei, Cg. exact P.
Qed.

(** ** Values *)
Section Value.
  Variable f : list R -> result R.
  Variable s : settings.
  Variable hash : R -> R.
  Variable drawn : list nat.
  Variable rnd : nat -> list R * list (list R).
  Variable ts : list transform.
  Hypothesis Hc : check s = Ok tt.
  Hypothesis Hd : choice_without_replacement (dim s) (bd s * nb s) drawn.
  Hypothesis Hr : drawn_blocks (bd s) (nb s) (s_rotation s) rnd.
  Hypothesis Hi : initialize (variable_of s) drawn rnd = Ok ts.

  Lemma ts_spec : length ts = nb s /\
    (forall k t, nth_error ts k = Some t -> length (t_indices t) = bd s /\ made s rnd (k, t_indices t) t) /\
    StronglySorted lt (concat (map t_indices ts)) /\ Permutation (concat (map t_indices ts)) drawn.
  Proof. destruct (init_spec s drawn rnd Hc Hd) as (ts' & E & G). rewrite Hi in E. injection E as <-. exact G. Qed.
  Lemma ts_shaped t : In t ts -> shaped (bd s) (dim s) t.
  Proof.
    intros Ht. pose proof ts_spec as (L & M & _ & P). destruct Hd as (_ & _ & Lt). pose proof Ht as Ht'.
    apply In_nth_error in Ht as (k & Hk). destruct (M k t Hk) as (Li & Mt). assert (Kn : (k < nb s)%nat) by (rewrite <- L; apply nth_error_Some; congruence).
    destruct (Hr k Kn) as (R1 & R2). unfold shaped. split; [exact Li|]. split; [|split].
    - intros i Hin. apply Lt. eapply Permutation_in; [exact P|]. apply in_concat. exists (t_indices t). split; [apply in_map; exact Ht'|exact Hin].
    - rewrite Mt. cbn. now rewrite map_length.
    - rewrite Mt. cbn. destruct (s_rotation s); [now apply R2|exact I].
  Qed.
  (** the coordinate of the optimum *)
  Definition place (o : list R) (t : transform) (j : nat) : R := if s_no_transform s then nth j o 0 else sent_to (bd s) t o j.
  Definition at_optimum (o : list R) (x : list R) : Prop :=
    forall t, In t ts -> forall j, (j < bd s)%nat -> nth (nth j (t_indices t) 0%nat) x 0 = place o t j.
  Lemma block_spec t x o : s_hashing s = false -> In t ts -> length x = dim s -> length o = bd s ->
    exists y, (if s_no_transform s then select x (t_indices t) else apply_transform t x) = Ok y /\ length y = bd s /\
      (y = o <-> forall j, (j < bd s)%nat -> nth (nth j (t_indices t) 0%nat) x 0 = place o t j).
  Proof.
    intros Hh Ht Lx Lo. pose proof (ts_shaped t Ht) as Sh. unfold place. destruct (s_no_transform s).
    - destruct Sh as (L & Iu & _). exists (map (fun i => nth i x 0) (t_indices t)).
      split; [apply select_spec; intros i Hin; rewrite Lx; now apply Iu|]. rewrite map_length. split; [exact L|].
      assert (Hs : forall j, (j < bd s)%nat -> nth j (map (fun i => nth i x 0) (t_indices t)) 0 = nth (nth j (t_indices t) 0%nat) x 0).
      { intros j Hj. rewrite (nth_indep _ 0 (nth 0%nat x 0)) by (rewrite map_length; lia). apply (map_nth (fun i => nth i x 0)). }
      split; [intros <- j Hj; symmetry; now apply Hs|]. intros H. apply (nth_ext_eq _ _ (bd s)); [now rewrite map_length|exact Lo|].
      intros j Hj. rewrite Hs by exact Hj. now apply H.
    - now apply (apply_spec (bd s) (dim s)).
  Qed.
  Lemma nb_pos : (0 < nb s)%nat.
  Proof. apply check_spec in Hc. unfold nb. lia. Qed.
  Lemma value_optimum v o : optimum (eq (bd s)) f v o -> s_hashing s = false -> s_zero_pen s = false ->
    forall x, length x = dim s -> exists r, evaluation f s hash ts [x] = Ok r /\
      combined (s_aggregator s) (nb s) (v (bd s)) <= r /\
      (r = combined (s_aggregator s) (nb s) (v (bd s)) <-> at_optimum (o (bd s)) x).
  Proof.
    intros Ho Hh Hz x Lx. destruct (Ho (bd s) eq_refl) as (Lo & G). destruct ts_spec as (L & _).
    unfold evaluation, transformed, process. cbn [concat variable_of v_hashing v_only_index]. rewrite app_nil_r, Hh.
    destruct (map_result_spec (fun t => if s_no_transform s then select x (t_indices t) else apply_transform t x)
      (fun t y => length y = bd s /\ (y = o (bd s) <-> forall j, (j < bd s)%nat -> nth (nth j (t_indices t) 0%nat) x 0 = place (o (bd s)) t j)) ts) as (ys & E & F).
    { intros t Ht. destruct (block_spec t x (o (bd s)) Hh Ht Lx Lo) as (y & H1 & H2 & H3). eauto. }
    rewrite E. cbn [bind]. unfold value_of, from_transform.
    destruct (map_result_spec f (fun y r => v (bd s) <= r /\ (r = v (bd s) <-> y = o (bd s))) ys) as (rs & Er & Fr).
    { intros y Hy. apply In_nth_error in Hy as (k & Hk). destruct (nth_error ts k) as [t|] eqn:Ht.
      - destruct (Forall2_nth _ _ _ _ _ _ F Ht Hk) as (Ly & _). destruct (G y Ly) as (r & ? & ? & ?). eauto.
      - apply nth_error_None in Ht. rewrite (Forall2_len _ _ _ F) in Ht. apply nth_error_None in Ht. congruence. }
    rewrite Er. cbn [bind]. assert (Lr : length rs = nb s) by (rewrite <- (Forall2_len _ _ _ Fr), <- (Forall2_len _ _ _ F); exact L).
    destruct (aggregate_spec (s_aggregator s) rs (v (bd s))) as (r & Ea & A1 & A2).
    { pose proof nb_pos. destruct rs; [cbn in Lr; lia|easy]. }
    { intros r Hin. apply In_nth_error in Hin as (k & Hk). destruct (nth_error ys k) as [y|] eqn:Hy.
      - now destruct (Forall2_nth _ _ _ _ _ _ Fr Hy Hk).
      - apply nth_error_None in Hy. rewrite (Forall2_len _ _ _ Fr) in Hy. apply nth_error_None in Hy. congruence. }
    rewrite Ea. cbn [bind]. rewrite Hz. exists r. split; [reflexivity|]. rewrite <- Lr. split; [exact A1|]. rewrite A2. unfold at_optimum. split.
    - intros H t Ht. apply In_nth_error in Ht as (k & Hk). destruct (nth_error ys k) as [y|] eqn:Hy.
      2:{ apply nth_error_None in Hy. rewrite <- (Forall2_len _ _ _ F) in Hy. apply nth_error_None in Hy. congruence. }
      destruct (nth_error rs k) as [r'|] eqn:Hr'.
      2:{ apply nth_error_None in Hr'. rewrite <- (Forall2_len _ _ _ Fr) in Hr'. apply nth_error_None in Hr'. congruence. }
      apply (Forall2_nth _ _ _ _ _ _ F Hk Hy). apply (Forall2_nth _ _ _ _ _ _ Fr Hy Hr'). apply H. now apply nth_error_In in Hr'.
    - intros H r' Hr'. apply In_nth_error in Hr' as (k & Hk). destruct (nth_error ys k) as [y|] eqn:Hy.
      2:{ apply nth_error_None in Hy. rewrite (Forall2_len _ _ _ Fr) in Hy. apply nth_error_None in Hy. congruence. }
      destruct (nth_error ts k) as [t|] eqn:Ht.
      2:{ apply nth_error_None in Ht. rewrite (Forall2_len _ _ _ F) in Ht. apply nth_error_None in Ht. congruence. }
      apply (Forall2_nth _ _ _ _ _ _ Fr Hy Hk). apply (Forall2_nth _ _ _ _ _ _ F Ht Hy). apply H. now apply nth_error_In in Ht.
  Qed.
  (** there is such a point *)
  Lemma find_key (l : list (nat * R)) i r : NoDup (map fst l) -> In (i, r) l -> find (fun p => (fst p =? i)%nat) l = Some (i, r).
  Proof.
    induction l as [|(k & a) l IH]; [intros _ []|]. cbn [map fst]. intros N [E|H].
    - injection E as -> ->. cbn. now rewrite Nat.eqb_refl.
    - inversion_clear N as [|? ? N1 N2]. cbn. destruct (Nat.eqb_spec k i) as [->|]; [|now apply IH].
      exfalso. apply N1. apply in_map_iff. exists (i, r). auto.
  Qed.
  Lemma optimum_exists o : exists x, length x = dim s /\ at_optimum o x.
  Proof.
    set (assoc := concat (map (fun t => combine (t_indices t) (map (place o t) (seq 0 (bd s)))) ts)).
    destruct ts_spec as (_ & M & S & P).
    assert (Li : forall t, In t ts -> length (t_indices t) = bd s) by (intros t Ht; apply (ts_shaped t Ht)).
    assert (K : map fst assoc = concat (map t_indices ts)).
    { unfold assoc. rewrite concat_map, map_map. f_equal. apply map_ext_in. intros t Ht.
      assert (G : forall (l : list nat) (m : list R), length l = length m -> map fst (combine l m) = l).
      { induction l as [|a l IH]; intros [|b m] E; try discriminate; [reflexivity|]. cbn. f_equal. apply IH. now injection E. }
      apply G. now rewrite map_length, seq_length, Li. }
    assert (N : NoDup (map fst assoc)).
    { rewrite K. destruct Hd as (N & _). eapply Permutation_NoDup; [apply Permutation_sym, P|exact N]. }
    exists (map (fun i => match find (fun p => (fst p =? i)%nat) assoc with Some (_, r) => r | None => 0 end) (seq 0 (dim s))).
    rewrite map_length, seq_length. split; [reflexivity|]. intros t Ht j Hj.
    assert (B : (nth j (t_indices t) 0 < dim s)%nat) by (apply (ts_shaped t Ht), nth_In; rewrite (Li t Ht); exact Hj).
    set (g := fun i => match find (fun p => (fst p =? i)%nat) assoc with Some (_, r) => r | None => 0 end).
    rewrite (nth_indep _ 0 (g 0%nat)) by (rewrite map_length, seq_length; exact B). rewrite map_nth, seq_nth by exact B. cbn [Nat.add]. unfold g.
    rewrite (find_key assoc _ (place o t j)); [reflexivity|exact N|]. unfold assoc. apply in_concat.
    exists (combine (t_indices t) (map (place o t) (seq 0 (bd s)))). split; [now apply (in_map (fun t => combine (t_indices t) (map (place o t) (seq 0 (bd s)))))|].
    assert (E : nth j (combine (t_indices t) (map (place o t) (seq 0 (bd s)))) (0%nat, place o t 0) = (nth j (t_indices t) 0%nat, place o t j)).
    { rewrite combine_nth by (rewrite map_length, seq_length; now apply Li). f_equal. rewrite map_nth. now rewrite seq_nth. }
    rewrite <- E. apply nth_In. rewrite combine_length, map_length, seq_length, (Li t Ht). lia.
  Qed.
  Lemma useless x x' : s_hashing s = false -> length x = dim s -> length x' = dim s -> (forall i, In i drawn -> nth i x 0 = nth i x' 0) ->
    transformed s hash ts x = transformed s hash ts x'.
  Proof.
    intros Hh Lx Lx' H. unfold transformed, process. cbn [variable_of v_hashing v_only_index]. rewrite Hh. apply map_result_ext. intros t Ht.
    destruct ts_spec as (_ & _ & _ & P).
    assert (E : select x (t_indices t) = select x' (t_indices t)).
    { destruct (ts_shaped t Ht) as (_ & B & _). rewrite !select_spec by (intros i Hin; first [rewrite Lx|rewrite Lx']; now apply B).
      f_equal. apply map_ext_in. intros i Hin. apply H. eapply Permutation_in; [exact P|]. apply in_concat. exists (t_indices t). split; [now apply in_map|exact Hin]. }
    unfold apply_transform. rewrite E. reflexivity.
  Qed.
  Lemma all_useful : s_useless s = 0%Z -> concat (map t_indices ts) = seq 0 (dim s).
  Proof.
    intros Z. destruct ts_spec as (_ & _ & So & P). destruct Hd as (_ & L & B). apply sorted_seq; [exact So| |].
    - rewrite (Permutation_length P), L. unfold dim. rewrite Z. cbn. lia.
    - intros i Hin. apply B. eapply Permutation_in; [exact P|exact Hin].
  Qed.
End Value.
Lemma concat_nth_block {A} (l : list (list A)) d k g : Forall (fun g => length g = d) l -> nth_error l k = Some g ->
  g = firstn d (skipn (k * d) (concat l)).
Proof.
  intros F. revert k. induction F as [|h l Hh F IH]; intros [|k]; cbn [nth_error]; try discriminate.
  - intros [= ->]. cbn. rewrite firstn_app, Hh, Nat.sub_diag, firstn_O, app_nil_r. symmetry. apply firstn_all2. lia.
  - intros H. cbn [concat]. rewrite skipn_app, Hh. replace (S k * d - d)%nat with (k * d)%nat by nia.
    rewrite skipn_all2 by (rewrite Hh; nia). cbn. now apply IH.
Qed.
Lemma penalty_bounds factor y : 0 < factor -> 0 <= penalty factor y < 250 /\ (penalty factor y = 0 <-> factor / 3 <= / 10000000 + norm y).
Proof.
  intros H. unfold penalty. assert (N : 0 <= norm y) by apply sqrt_pos. set (e := / 10000000). assert (He : 0 < e) by (unfold e; lra).
  set (n := norm y) in *. assert (P : 0 < e + factor + n) by lra.
  assert (Q : factor / (e + factor + n) < 1) by (apply Rmult_lt_reg_r with (e + factor + n); [exact P|]; unfold Rdiv; rewrite Rmult_assoc, Rinv_l; lra).
  assert (T : factor / (e + factor + n) <= 75 / 100 <-> factor / 3 <= e + n).
  { split; intros G.
    - apply Rmult_le_compat_r with (r := e + factor + n) in G; [|lra]. unfold Rdiv in G at 1. rewrite Rmult_assoc, Rinv_l in G by lra. lra.
    - apply Rmult_le_reg_r with (e + factor + n); [exact P|]. unfold Rdiv at 1. rewrite Rmult_assoc, Rinv_l by lra. lra. }
  rewrite <- T. clear T. set (u := factor / (e + factor + n)) in *. unfold Rmax. destruct (Rle_dec (u - 75 / 100) 0); split; try lra; split; lra.
Qed.
Lemma far_spec o x : length x = length o -> 0 <= far_mono o x /\ (far_mono o x = 0 <-> x = o).
Proof.
  unfold far_mono, far_multi. revert o. induction x as [|a x IH]; intros [|b o] L; try discriminate; [cbn; split; [lra|tauto]|].
  injection L as L. destruct (IH o L) as (I1 & I2). cbn [combine map rsum fst snd]. pose proof (Rabs_pos (a - b)) as P. split; [lra|]. split.
  - intros E. assert (Z : Rabs (a - b) = 0) by lra. assert (a - b = 0). { destruct (Req_dec (a - b) 0); [assumption|]. now apply Rabs_no_R0 in H. }
    f_equal; [lra|]. apply I2. lra.
  - intros E. injection E as -> ->. rewrite (proj2 I2 eq_refl). replace (b - b) with 0 by lra. rewrite Rabs_R0. lra.
Qed.
