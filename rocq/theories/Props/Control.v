(** C132: control policies. *)
From Coq Require Import Bool Arith List String ZArith QArith Lia Lqa.
From Verif Require Import Model.Prelude Model.MultiValue Model.Planning Model.Control Spec.Control Proofs.MultiValue Proofs.Control.
Import ListNotations.
Open Scope nat_scope.
Open Scope list_scope.

(** C132: without noise, the loss is the opposite of the mean, over the rollouts, of the sum of the rewards of an episode, each
    from a reset to the first step which is done; nothing is drawn from the random state of the parametrization *)
Theorem C132_loss ftanh fsigmoid G normals randint E H (seeded : option Z -> H -> E) reset step fuel n seed p h (g g' : G) v :
  (p_noise p <= 0)%Q ->
  simulate ftanh fsigmoid G normals randint E H seeded reset step fuel n true seed p h g = Ok (g', Some v) ->
  g' = g /\ 0 < n /\
  exists rewards, List.length rewards = n /\
    episodes reset step (action_of ftanh fsigmoid (p_act p) (p_norm p) (p_coefs p) (p_layers p)) (seeded seed h) rewards /\
    (v == - (total (map total rewards) / inject_Z (Z.of_nat n)))%Q.
Proof.
  intros Hn Hs. unfold simulate in Hs.
  destruct (rollouts _ _ _ _ _ _ _ _ _ _ _ _) as [[[e1 g1] rs]|e] eqn:Hr; [|discriminate]. cbn [bind] in Hs.
  apply rollouts_spec in Hr; [|assumption]. destruct Hr as (-> & L & rewards & LR & HE & HF).
  destruct rs as [|r rs]; [discriminate|]. injection Hs as <- <-.
  split; [reflexivity|]. split; [cbn in L; lia|]. exists rewards. split; [assumption|]. split; [assumption|].
  rewrite <- L. rewrite (totals_qsum _ _ HF). reflexivity.
Qed.
Print Assumptions C132_loss.

(** C132: no rollout gives NaN *)
Theorem C132_none ftanh fsigmoid G normals randint E H (seeded : option Z -> H -> E) reset step fuel seed p h (g : G) :
  simulate ftanh fsigmoid G normals randint E H seeded reset step fuel 0 true seed p h g = Ok (g, None).
Proof. reflexivity. Qed.
Print Assumptions C132_none.

(** C132: with a seed and without noise, the loss of a policy is always the same: it depends neither on what was drawn before nor on
    the system *)
Theorem C132_same ftanh fsigmoid G normals randint E H (seeded : option Z -> H -> E) reset step fuel n z p h h' (g g' : G) :
  (forall s a b, seeded (Some s) a = seeded (Some s) b) -> (p_noise p <= 0)%Q ->
  match simulate ftanh fsigmoid G normals randint E H seeded reset step fuel n true (Some z) p h g,
        simulate ftanh fsigmoid G normals randint E H seeded reset step fuel n true (Some z) p h' g' with
  | Ok (_, v), Ok (_, v') => v = v'
  | Err e, Err e' => e = e'
  | _, _ => False
  end.
Proof.
  intros Hs Hn. unfold simulate. rewrite (Hs z h h').
  pose proof (rollouts_state ftanh fsigmoid G normals E reset step fuel p Hn n (seeded (Some z) h') g g') as R.
  destruct (rollouts _ _ _ _ _ _ _ _ _ _ _ g) as [[[e1 g1] rs]|e], (rollouts _ _ _ _ _ _ _ _ _ _ _ g') as [[[e2 g2] rs']|e'];
    cbn [bind]; intuition congruence.
Qed.
Print Assumptions C132_same.

(** C132, refuted for the default random_state: the simulation said to be deterministic is seeded with None, and two evaluations of
    the same policy may differ *)
Theorem C132_default_refuted :
  exists (seeded : option Z -> Q -> Q), (forall s a b, seeded (Some s) a = seeded (Some s) b) /\
  let sim h := simulate (fun q => q) (fun q => q) unit (fun g n => (g, repeat 0%Q n)) (fun g => (g, 0%Z)) Q Q seeded
     (fun e => (e, [e])) (fun e a => Ok (e, ([e], e, true))) 1 1 true None
     (Policy "tanh" None [1%Q] 0%Q [Matrix 1 1 (fun _ _ => 1%Q)]) h tt in
  exists v v', sim 1%Q = Ok (tt, Some v) /\ sim 2%Q = Ok (tt, Some v') /\ ~ (v == v')%Q.
Proof.
  exists (fun s h => match s with Some z => inject_Z z | None => h end). split; [reflexivity|].
  cbv zeta. eexists. eexists. split; [reflexivity|]. split; [reflexivity|]. vm_compute. discriminate.
Qed.
Print Assumptions C132_default_refuted.

(** C132: a policy of one layer is linear: each coordinate of the action is the coefficient times the sum over the coordinates of the
    observation, whatever the name of the activation *)
Theorem C132_linear ftanh fsigmoid name c cs m ms obs :
  ms = [] \/ cs = [] -> List.length obs = m_rows m ->
  exists a, action_of ftanh fsigmoid name None (c :: cs) (m :: ms) obs = Ok a /\ List.length a = m_cols m /\
    forall j x, nth_error a j = Some x -> (x == product_from 0 obs (m_at m) j * c)%Q.
Proof.
  intros Hm Hl. unfold action_of. cbn [normalize bind].
  destruct (matmul_ok obs m Hl) as (a & -> & La & Ha). cbn [bind].
  assert (E : combine ms cs = []) by (destruct Hm as [->| ->]; [reflexivity|now destruct ms]). rewrite E.
  exists (scale c a). split; [reflexivity|]. split; [unfold scale; now rewrite map_length|].
  intros j x Hx. unfold scale in Hx. rewrite nth_error_map in Hx. destruct (nth_error a j) as [y|] eqn:Hy; [|discriminate].
  injection Hx as <-. now rewrite (Ha j y Hy).
Qed.
Print Assumptions C132_linear.

(** C132: each further layer gets the activation of the action so far, plus a thousandth, and its product is multiplied by its
    coefficient *)
Theorem C132_deeper ftanh fsigmoid norm coefs layers c m obs a :
  layers <> [] -> List.length coefs = List.length layers ->
  action_of ftanh fsigmoid "tanh" norm coefs layers obs = Ok a -> List.length a = m_rows m ->
  exists a', action_of ftanh fsigmoid "tanh" norm (coefs ++ [c]) (layers ++ [m]) obs = Ok a' /\ List.length a' = m_cols m /\
    forall j x, nth_error a' j = Some x ->
      (x == product_from 0 (map (fun q => ftanh q + (1 # 1000))%Q a) (m_at m) j * c)%Q.
Proof.
  intros NE Hl Ha La. destruct layers as [|l0 ls]; [easy|]. destruct coefs as [|c0 cs]; [discriminate|].
  cbn [app action_of] in *. destruct (normalize norm obs) as [o|]; [|discriminate]. cbn [bind] in *.
  destruct (matmul o l0) as [b|]; [|discriminate]. cbn [bind] in *. rewrite combine_snoc by (cbn in Hl; lia).
  rewrite (next_snoc _ _ _ _ _ _ _ _ Ha). cbn [activate String.eqb Ascii.eqb Bool.eqb bind].
  destruct (matmul_ok (map (fun q => (q + (1 # 1000))%Q) (map ftanh a)) m) as (d & E & Ld & Hd); [now rewrite !map_length|].
  unfold activate. cbn. rewrite E. cbn [bind]. exists (scale c d). split; [reflexivity|].
  split; [unfold scale; now rewrite map_length|]. intros j x Hx. unfold scale in Hx. rewrite nth_error_map in Hx.
  destruct (nth_error d j) as [y|] eqn:Hy; [|discriminate]. injection Hx as <-. rewrite (Hd j y Hy), map_map. reflexivity.
Qed.
Print Assumptions C132_deeper.

(** C132: a simulation which is not deterministic is seeded by a number drawn from the random state of the parametrization *)
Theorem C132_seed ftanh fsigmoid G normals randint E H (seeded : option Z -> H -> E) reset step fuel n seed p h (g : G) :
  simulate ftanh fsigmoid G normals randint E H seeded reset step fuel n false seed p h g =
  simulate ftanh fsigmoid G normals randint E H seeded reset step fuel n true (Some (snd (randint g))) p h (fst (randint g)).
Proof. unfold simulate. now destruct (randint g). Qed.
Print Assumptions C132_seed.

(** C132: the layers of a policy with its default coefficients fit each other: on an observation with the expected size, normalized
    or not, an action with the expected size is computed *)
Theorem C132_shapes ftanh fsigmoid name norm first last inter obs layers :
  (name = "tanh" \/ name = "sigmoid")%string ->
  match norm with None => True | Some (mean, std) => List.length mean = first /\ List.length std = first end ->
  List.length obs = first ->
  map (fun m => (m_rows m, m_cols m)) layers = layer_shapes (policy_shape first last inter) ->
  exists a, action_of ftanh fsigmoid name norm (coefficients None (policy_shape first last inter)) layers obs = Ok a /\
    List.length a = last.
Proof.
  intros Hn Hm Ho Hl. unfold policy_shape in *. set (mid := match inter with Some l => l | None => [] end) in *. clearbody mid.
  destruct (normalize_ok norm first obs Hm Ho) as (o & En & Lo).
  destruct (shapes_split first mid last) as (n1 & rest & Es & Hr).
  rewrite Es in Hl. destruct layers as [|m ms]; [discriminate|]. cbn [map] in Hl. injection Hl as R C Hms.
  assert (Ec : coefficients None (first :: mid ++ [last]) = 1%Q :: repeat 1%Q (List.length mid)).
  { unfold coefficients. cbn [List.length]. rewrite app_length. cbn [List.length]. rewrite Nat.add_1_r. cbn [Nat.sub repeat]. reflexivity. }
  rewrite Ec. unfold action_of. rewrite En. cbn [bind].
  destruct (matmul_ok o m) as (a & -> & La & _); [congruence|]. cbn [bind].
  assert (Lms : List.length ms = List.length mid).
  { rewrite <- (map_length (fun m => (m_rows m, m_cols m)) ms), Hms. exact (proj1 Hr). }
  apply (next_ok ftanh fsigmoid name Hn) with (n := n1); [unfold scale; rewrite map_length; congruence| |].
  - rewrite repeat_length. lia.
  - rewrite Hms. exact (proj2 Hr).
Qed.
Print Assumptions C132_shapes.

(** C132, refuted: "all the layers are used": layers without a coefficient are ignored, so that the action of a policy with too few
    coefficients is that of its first layers *)
Theorem C132_layers_refuted ftanh fsigmoid name norm coefs layers more obs :
  layers <> [] -> List.length coefs = List.length layers ->
  action_of ftanh fsigmoid name norm coefs (layers ++ more) obs = action_of ftanh fsigmoid name norm coefs layers obs.
Proof.
  intros NE Hl. destruct layers as [|m ms]; [easy|]. destruct coefs as [|c cs]; [discriminate|]. cbn [app action_of].
  assert (E : forall (x : list matrix) (y : list Q) z, List.length y = List.length x -> combine (x ++ z) y = combine x y).
  { induction x as [|a x IH]; intros [|b y] z Hx; cbn in *; try discriminate; [now destruct z|]. f_equal. apply IH. lia. }
  now rewrite E by (cbn in Hl; lia).
Qed.
Print Assumptions C132_layers_refuted.

(** C132: an unknown activation raises NotImplementedError as soon as there are two layers *)
Theorem C132_activation ftanh fsigmoid name c c' cs m m' ms obs :
  name <> "tanh"%string -> name <> "sigmoid"%string -> List.length obs = m_rows m ->
  action_of ftanh fsigmoid name None (c :: c' :: cs) (m :: m' :: ms) obs = Err NotImplementedError.
Proof.
  intros N1 N2 Hl. unfold action_of. cbn [normalize bind]. destruct (matmul_ok obs m Hl) as (a & -> & _). cbn [bind combine next_layers].
  unfold activate. apply String.eqb_neq in N1, N2. now rewrite N1, N2.
Qed.
Print Assumptions C132_activation.

(** C132: normalizing the states makes the policy independent of their units: shifting and scaling the observations together with
    their mean and deviation does not change what the first layer gets *)
Theorem C132_units mean std obs shift c :
  ~ (c == 0)%Q -> Forall (fun s => ~ (s == 0)%Q) std ->
  match normalize (Some (map (fun x => (x * c + shift)%Q) mean, map (fun x => (x * c)%Q) std)) (map (fun x => (x * c + shift)%Q) obs),
        normalize (Some (mean, std)) obs with
  | Ok a, Ok b => Forall2 Qeq a b
  | Err e, Err e' => e = e'
  | _, _ => False
  end.
Proof.
  intros Hc Hs. unfold normalize. rewrite !map_length. destruct (_ && _); [|reflexivity].
  revert mean obs. induction Hs as [|s std Hs0 Hs IH]; intros mean obs.
  - destruct (combine (map _ obs) (map _ mean)), (combine obs mean); constructor.
  - destruct obs as [|o obs], mean as [|mu mean]; cbn [map combine]; try constructor; [|apply IH].
    cbn [fst snd]. field. now split.
Qed.
Print Assumptions C132_units.

(** C132: the noise is proportional to the action: coordinates at zero stay at zero, and with a level which is not positive nothing is drawn *)
Theorem C132_noise G (normals : G -> nat -> G * list Q) level g action :
  ((level <= 0)%Q -> noisy G normals level g action = (g, action)) /\
  (forall a', noisy G normals level g action = a' -> forall j, nth_error action j = Some 0%Q ->
     forall x, nth_error (snd a') j = Some x -> (x == 0)%Q).
Proof.
  split.
  - intros L. unfold noisy. apply qlt_false in L. now rewrite L.
  - intros a' <- j Hj x. unfold noisy. destruct (qlt 0 level); [|cbn [snd]; intros E; rewrite E in Hj; now injection Hj as ->].
    destruct (normals g _) as [g' z]. cbn [snd]. rewrite nth_error_map. destruct (nth_error (combine action z) j) as [[a b]|] eqn:Ec; [|discriminate].
    intros [= <-]. cbn [fst snd]. assert (Ea : a = 0%Q).
    { clear -Hj Ec. revert z j Hj Ec. induction action as [|y l IH]; intros [|w z] [|j] Hj Ec; cbn in *; try congruence. now apply (IH z j). }
    subst a. ring.
Qed.
Print Assumptions C132_noise.

(** two layers, two steps, two rollouts *)
Example C132_example :
  exists v, simulate (fun q => q) (fun q => q) unit (fun g n => (g, repeat 0%Q n)) (fun g => (g, 0%Z)) nat unit
     (fun _ _ => 0) (fun e => (0, [1%Q; 2%Q])) (fun e a => Ok (S e, ([1%Q; 1%Q], qsum a, 1 <=? e))) 5 2 true (Some 3%Z)
     (Policy "tanh" None [1%Q; 2%Q] 0%Q [Matrix 2 2 (fun i j => if i =? j then 1 else 0)%Q; Matrix 2 1 (fun _ _ => 1%Q)]) tt tt
     = Ok (tt, Some v) /\ (v == - (10 + (8 # 1000)))%Q.
Proof. eexists. split; [vm_compute; reflexivity|]. reflexivity. Qed.
