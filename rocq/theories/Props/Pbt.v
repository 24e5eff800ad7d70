(** Population based training (nevergrad/functions/pbt.py). *)
From Coq Require Import List Arith QArith Bool Lia Lqa.
From Verif.Model Require Import Prelude MultiValue Pbt.
From Verif.Spec Require Import Pbt.
From Verif.Proofs Require Import MultiValue Pbt.
Import ListNotations.
Open Scope nat_scope.

(** Any sequence of evaluations runs. *)
Theorem C109_runs : forall dims func grad qexp norm n l, same_size grad -> 0 < n -> Forall (proper n dims) l ->
  exists s, trains dims func grad qexp norm l (pbt_init dims n) = Ok s.
Proof.
  intros dims func grad qexp norm n l Sz Hn P.
  destruct (trains_shape dims func grad qexp norm Sz n Hn l _ (shape_init dims n) P) as (s & E & _). eauto.
Qed.
Print Assumptions C109_runs.

(** After any history, the loss is the value of one step of training from the checkpoint of the first worker of least distance;
    the target keeps the result, the parameters and the loss. The workers which do not hold the same array as the target are
    left as they were, and if the target is not the source, it shares its array with nobody and all the others are left. *)
Theorem C109_loss : forall dims func grad qexp norm n past s d x, same_size grad -> 0 < n -> Forall (proper n dims) past ->
  trains dims func grad qexp norm past (pbt_init dims n) = Ok s -> proper n dims (d, x) ->
  exists v s' source c c', train dims func grad qexp norm d x s = Ok (v, s')
    /\ first_least (distances norm d x s) source /\ checkpoint s source = Some c
    /\ evolve dims grad qexp c x (noises d) = Ok c' /\ value dims func c' = Ok v
    /\ checkpoint s' (target d) = Some c' /\ nth_error (fitness s') (target d) = Some (Some v)
    /\ nth_error (parameters s') (target d) = Some x
    /\ (forall w, w <> target d -> nth_error (fitness s') w = nth_error (fitness s) w
          /\ nth_error (parameters s') w = nth_error (parameters s) w
          /\ (~ share s w (target d) \/ source <> target d -> checkpoint s' w = checkpoint s w))
    /\ (source <> target d -> forall w, w <> target d -> ~ share s' (target d) w).
Proof.
  intros dims func grad qexp norm n past s d x Sz Hn P E Pd.
  destruct (trains_shape dims func grad qexp norm Sz n Hn past _ (shape_init dims n) P) as (s0 & E0 & Sh).
  rewrite E in E0. inversion E0; subst s0.
  destruct (train_ok dims func grad qexp norm Sz n s d x Hn Sh Pd) as (v & s' & src & T & Sh' & FL & Ls & Tr & M).
  destruct Tr as (c & c' & T1 & T2 & T3 & T4 & T5 & T6). destruct M as (M1 & M2 & M3 & M4 & M5).
  destruct Sh as (S1 & S2 & S3 & S4 & S5).
  exists v, s', src, c, c'. repeat (split; [assumption|]). split.
  - intros w Hw. split; [auto|]. split; [auto|]. intros H. unfold checkpoint. rewrite (M1 w Hw).
    destruct (nth_error (checkpoints s) w) as [a|] eqn:Ea; [|reflexivity].
    assert (La : a < length (heap s)) by (apply S4; eapply nth_error_In; eauto).
    apply M3; [exact La|]. intros K. destruct (Nat.eqb_spec (target d) src) as [Q0|Q0].
    + destruct H as [H|H]; [|congruence]. apply H. exists a. split; [exact Ea|congruence].
    + rewrite M2 in K. inversion K; lia.
  - intros Ne w Hw (a & A1 & A2). destruct (Nat.eqb_spec (target d) src) as [Q0|Q0]; [congruence|].
    rewrite M2 in A1. inversion A1; subst a. rewrite (M1 w Hw) in A2. apply nth_error_In, S4 in A2. lia.
Qed.
Print Assumptions C109_loss.

(** Once a worker was trained and shares its array with nobody, its fitness is the value of its checkpoint for ever. *)
Theorem C109_fitness : forall dims func grad qexp norm n past s d x v s1 future s2, same_size grad -> 0 < n ->
  Forall (proper n dims) past -> proper n dims (d, x) -> Forall (proper n dims) future ->
  trains dims func grad qexp norm past (pbt_init dims n) = Ok s ->
  train dims func grad qexp norm d x s = Ok (v, s1) ->
  (forall w, w <> target d -> ~ share s1 (target d) w) ->
  trains dims func grad qexp norm future s1 = Ok s2 ->
  exists c u, checkpoint s2 (target d) = Some c /\ value dims func c = Ok u
    /\ nth_error (fitness s2) (target d) = Some (Some u).
Proof.
  intros dims func grad qexp norm n past s d x v s1 future s2 Sz Hn P Pd F E E1 Al E2.
  destruct (trains_shape dims func grad qexp norm Sz n Hn past _ (shape_init dims n) P) as (s0 & E0 & Sh).
  rewrite E in E0. inversion E0; subst s0.
  destruct (train_ok dims func grad qexp norm Sz n s d x Hn Sh Pd) as (v' & s' & src & T & Sh' & FL & Ls & Tr & M).
  rewrite E1 in T. inversion T; subst v' s'. destruct Tr as (c & c' & T1 & T2 & T3 & T4 & T5 & T6).
  assert (O : own dims func s1 (target d)).
  { unfold checkpoint in T4. destruct (nth_error (checkpoints s1) (target d)) as [a|] eqn:Ea; [|discriminate].
    exists a, c', v. split; [exact Ea|]. split; [|auto]. intros w Hw K. apply (Al w Hw). exists a. auto. }
  destruct (own_trains dims func grad qexp norm Sz n Hn future s1 s2 (target d) Sh' F E2 O) as (a & k & u & A1 & _ & A3 & A4 & A5).
  exists k, u. unfold checkpoint. rewrite A1. auto.
Qed.
Print Assumptions C109_fitness.

(** One step of training: in every block, each coordinate moves against its gradient, with one noise for the whole block whose
    mean is the dimension of the block: [np.random.normal(d)] draws one number around [d], not [d] numbers around 0. *)
Theorem C109_step : forall dims grad qexp x pp zs, same_size grad -> length x = list_sum dims ->
  length pp = length dims -> length zs = length dims ->
  exists x' bs', evolve dims grad qexp x pp zs = Ok x' /\ unflatten dims x' = Ok bs'
    /\ forall bs k b, unflatten dims x = Ok bs -> nth_error bs k = Some b ->
         exists d p z b', nth_error dims k = Some d /\ nth_error pp k = Some p /\ nth_error zs k = Some z
           /\ nth_error bs' k = Some b' /\ length b' = length b
           /\ forall i y g, nth_error b i = Some y -> nth_error (grad k b) i = Some g ->
                exists y', nth_error b' i = Some y' /\ (y' == y - qexp p * (g + (qnat d + z)))%Q.
Proof.
  intros dims grad qexp x pp zs Sz Hx Hp Hz.
  destruct (evolve_ok dims grad qexp Sz x pp zs Hx Hp Hz) as (x' & E & L & U).
  exists x', (descend_all grad qexp 0 dims pp zs (blocks dims x)). split; [exact E|]. split; [exact U|].
  intros bs k b Ub Hb. unfold unflatten in Ub. rewrite Hx, Nat.eqb_refl in Ub. inversion Ub; subst bs.
  assert (Lb : length (blocks dims x) = length dims) by (symmetry; eapply forall2_length, blocks_sizes; exact Hx).
  destruct (descend_all_nth grad qexp dims 0 pp zs _ k b Hp Hz Lb Hb) as (d & p & z & K1 & K2 & K3 & K4).
  exists d, p, z. eexists. split; [exact K1|]. split; [exact K2|]. split; [exact K3|]. split; [exact K4|].
  split; [now apply descend_length|]. intros i y g Hy Hg. cbn [Nat.add] in *.
  exists (y - qexp p * (g + (qnat d + z)))%Q. split; [|reflexivity]. unfold descend. rewrite nth_error_map.
  assert (C : nth_error (combine b (grad k b)) i = Some (y, g)).
  { clear - Hy Hg. revert i Hy Hg. generalize (grad k b) as gs. induction b as [|a b IH]; intros gs i Hy Hg; [destruct i; discriminate|].
    destruct gs as [|h gs]; [destruct i; discriminate|]. destruct i as [|i]; cbn in *; [congruence|auto]. }
  now rewrite C.
Qed.
Print Assumptions C109_step.

(** So that an optimum (where the gradients are zero) is left even with all the noises at zero: each coordinate of a block
    moves by the learning rate times the dimension. *)
Theorem C109_noise_refuted : forall dims qexp x pp, length x = list_sum dims -> length pp = length dims ->
  (forall p, (0 < qexp p)%Q) -> (exists d, In d dims /\ 0 < d) ->
  exists x', evolve dims (fun _ b => map (fun _ => 0%Q) b) qexp x pp (repeat 0%Q (length dims)) = Ok x'
    /\ exists i y y', nth_error x i = Some y /\ nth_error x' i = Some y' /\ (y' < y)%Q.
Proof.
  intros dims qexp x pp Hx Hp Ex (d & Hd & Pos).
  assert (Sz : same_size (fun _ b => map (fun _ : Q => 0%Q) b)) by (intros j b; apply map_length).
  destruct (evolve_ok dims _ qexp Sz x pp (repeat 0%Q (length dims)) Hx Hp (repeat_length _ _)) as (x' & E & L & _).
  exists x'. split; [exact E|].
  unfold evolve, unflatten in E. rewrite Hp, Hx, !Nat.eqb_refl in E. cbn [bind] in E. inversion E as [E']. clear E E' L Sz.
  revert x pp Hx Hp. generalize 0 as j. induction dims as [|d0 ds IH]; intros j x pp Hx Hp; [destruct Hd|].
  destruct pp as [|p ps]; [discriminate|]. change (list_sum (d0 :: ds)) with (d0 + list_sum ds) in Hx.
  cbn [blocks repeat length descend_all concat].
  destruct d0 as [|d0].
  - destruct Hd as [Hd|Hd]; [lia|]. cbn [firstn skipn]. unfold descend at 1. cbn [map combine app].
    apply (IH Hd (S j) x ps); auto.
  - destruct x as [|y x]; [discriminate|]. exists 0, y. eexists. split; [reflexivity|]. split; [reflexivity|].
    cbn [fst snd]. specialize (Ex p). unfold qnat. assert (K : (1 <= inject_Z (Z.of_nat (S d0)))%Q).
    { change 1%Q with (inject_Z 1). rewrite <- Zle_Qle. lia. }
    assert (0 < qexp p * (0 + (inject_Z (Z.of_nat (S d0)) + 0)))%Q; [|lra].
    apply Qmult_lt_0_compat; [exact Ex|lra].
Qed.
Print Assumptions C109_noise_refuted.

(** All the workers start with the same array (line 38): two of them may be trained in turn on it, and then the fitness of the
    first is not the value of its checkpoint. *)
Definition f_demo (_ : nat) (b : list Q) : Q := fold_right Qplus 0%Q b.
Definition g_demo (_ : nat) (b : list Q) : list Q := map (fun _ => 1%Q) b.
Definition n_demo (_ : bool) (a b : list Q) : Q :=
  fold_right Qplus 0%Q (map (fun p => let d := (fst p - snd p)%Q in if qlt d 0 then (- d)%Q else d) (combine a b)).
Definition calls_demo : list (draws * list Q) :=
  [(mkDraws true false 0 [0%Q], [5%Q]); (mkDraws false false 1 [0%Q], [0%Q])].
Theorem C109_shared_refuted : exists s c v u, Forall (proper 2 [1]) calls_demo
  /\ trains [1] f_demo g_demo (fun _ => 1%Q) n_demo calls_demo (pbt_init [1] 2) = Ok s
  /\ checkpoint s 0 = Some c /\ nth_error (fitness s) 0 = Some (Some v) /\ value [1] f_demo c = Ok u /\ ~ (v == u)%Q
  /\ share s 0 1.
Proof.
  do 4 eexists. split; [repeat constructor; cbn; lia|]. split; [vm_compute; reflexivity|].
  split; [reflexivity|]. split; [reflexivity|]. split; [vm_compute; reflexivity|]. split; [vm_compute; discriminate|].
  exists 0. split; reflexivity.
Qed.
Print Assumptions C109_shared_refuted.

Example C109_sizes : same_size g_demo.
Proof. intros j b. apply map_length. Qed.
(** A copy from the first worker to the second one: afterwards they hold different arrays. *)
Example C109_copy : exists s, trains [1] f_demo g_demo (fun _ => 1%Q) n_demo
    [(mkDraws true false 0 [0%Q], [5%Q]); (mkDraws true false 1 [0%Q], [5%Q])] (pbt_init [1] 2) = Ok s
  /\ checkpoints s = [0; 1] /\ map (option_map Qred) (fitness s) = [Some (-2)%Q; Some (-4)%Q].
Proof. eexists. split; [vm_compute; reflexivity|]. split; reflexivity. Qed.

(** The value of an array is the sum of the functions on the consecutive blocks of the array. *)
Theorem C109_value : forall dims func x v, value dims func x = Ok v ->
  exists bs, concat bs = x /\ map (@length Q) bs = dims
    /\ (v == fold_right Qplus 0 (map (fun j => func j (nth j bs [])) (seq 0 (length dims))))%Q.
Proof.
  intros dims func x v E. unfold value, unflatten in E. destruct (Nat.eqb_spec (length x) (list_sum dims)) as [L|]; [|discriminate E]. cbn [bind] in E.
  injection E as <-. exists (blocks dims x). split; [|split].
  - revert x L. induction dims as [|d ds IH]; intros x L; [destruct x; [reflexivity|discriminate L]|]. cbn [blocks concat].
    rewrite IH by (rewrite skipn_length, L; change (list_sum (d :: ds)) with (d + list_sum ds); lia). apply firstn_skipn.
  - pose proof (blocks_sizes dims x L) as F. clear L. induction F as [|d b ds bs H F IH]; [reflexivity|]. cbn [map]. f_equal; [exact H|exact IH].
  - assert (Lb : length (blocks dims x) = length dims) by (symmetry; apply (forall2_length _ _ _ (blocks_sizes dims x L))).
    rewrite <- Lb. clear. generalize (blocks dims x) as bs.
    assert (G : forall bs j, (values_from func j bs == fold_right Qplus 0 (map (fun i => func i (nth (i - j) bs [])) (seq j (length bs))))%Q).
    { induction bs as [|b bs IH]; intros j; [reflexivity|]. cbn. rewrite Nat.sub_diag, IH. apply Qplus_comp; [reflexivity|].
      replace (map (fun i => func i match i - j with 0 => b | S m => nth m bs [] end) (seq (S j) (length bs))) with (map (fun i => func i (nth (i - S j) bs [])) (seq (S j) (length bs))); [reflexivity|].
      apply map_ext_in. intros i Hi. apply in_seq in Hi. replace (i - j) with (S (i - S j)) by lia. reflexivity. }
    intros bs. rewrite G. replace (map (fun i => func i (nth (i - 0) bs [])) (seq 0 (length bs))) with (map (fun i => func i (nth i bs [])) (seq 0 (length bs))); [reflexivity|].
    apply map_ext. intros i. now rewrite Nat.sub_0_r.
Qed.
Print Assumptions C109_value.
