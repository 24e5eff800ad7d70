(** Control policies: /repo/nevergrad/functions/control (core.py:58-130, mujoco.py:31-81). *)
From Coq Require Import Bool Arith List String ZArith QArith Lia.
From Verif Require Import Model.Prelude Model.MultiValue Model.Planning.
Import ListNotations.
Open Scope nat_scope.
Open Scope list_scope.

(** a layer: an array of two axes *)
Record matrix : Type := Matrix { m_rows : nat; m_cols : nat; m_at : nat -> nat -> Q }.
(** np.matmul(v, m) *)
Definition matmul (v : list Q) (m : matrix) : result (list Q) :=
  if negb (List.length v =? m_rows m) then Err ValueError
  else Ok (map (fun j => qsum (map (fun ix => (snd ix * m_at m (fst ix) j)%Q) (combine (seq 0 (List.length v)) v)))
             (seq 0 (m_cols m))).
Definition scale (c : Q) (v : list Q) : list Q := map (fun x => (x * c)%Q) v.

(** core.py:68-72: the shapes of the layers, from policy_dim with its intermediate layers *)
Definition policy_shape (first last : nat) (intermediate : option (list nat)) : list nat :=
  first :: match intermediate with Some l => l | None => [] end ++ [last].
Definition layer_shapes (dims : list nat) : list (nat * nat) := combine (removelast dims) (tl dims).
(** core.py:84-86 *)
Definition coefficients (given : option (list Q)) (dims : list nat) : list Q :=
  match given with Some l => l | None => repeat 1%Q (List.length dims - 1) end.

Section Control.
(** np.tanh and the logistic function *)
Variables ftanh fsigmoid : Q -> Q.
(** mujoco.py:51-57 *)
Definition activate (name : string) (v : list Q) : result (list Q) :=
  if String.eqb name "tanh" then Ok (map ftanh v)
  else if String.eqb name "sigmoid" then Ok (map fsigmoid v)
  else Err NotImplementedError.

(** mujoco.py:73-74 *)
Fixpoint next_layers (name : string) (action : list Q) (layers : list (matrix * Q)) : result (list Q) :=
  match layers with
  | [] => Ok action
  | (x, r) :: layers' =>
      bind (activate name action) (fun a =>
      bind (matmul (map (fun q => (q + (1 # 1000))%Q) a) x) (fun a' =>
      next_layers name (scale r a') layers'))
  end.
(** mujoco.py:67-70: [norm] is None without normalization.
    Simplification: exact numbers, and a standard deviation without zeros *)
Definition normalize (norm : option (list Q * list Q)) (obs : list Q) : result (list Q) :=
  match norm with
  | None => Ok obs
  | Some (mean, std) =>
      if (List.length obs =? List.length mean) && (List.length obs =? List.length std)
      then Ok (map (fun omd => ((fst (fst omd) - snd (fst omd)) / snd omd)%Q) (combine (combine obs mean) std))
      else Err ValueError
  end.
(** mujoco.py:67-74 *)
Definition action_of (name : string) (norm : option (list Q * list Q)) (coefs : list Q) (layers : list matrix) (obs : list Q)
  : result (list Q) :=
  match layers with
  | [] => Err IndexError
  | l0 :: layers' =>
      bind (normalize norm obs) (fun o =>
      bind (matmul o l0) (fun a =>
      match coefs with
      | [] => Err IndexError
      | c0 :: coefs' => next_layers name (scale c0 a) (combine layers' coefs')
      end))
  end.

(** the random state: [normals g n] draws n numbers, [randint g] an integer below 10000 *)
Variable G : Type.
Variables (normals : G -> nat -> G * list Q) (randint : G -> G * Z).
(** the environment: created with a seed (None: taken from the system, here [h]), reset and steps *)
Variables E H : Type.
Variable seeded : option Z -> H -> E.
Variables (reset : E -> E * list Q) (step : E -> list Q -> result (E * (list Q * Q * bool))).

(** mujoco.py:75-76 *)
Definition noisy (level : Q) (g : G) (action : list Q) : G * list Q :=
  if qlt 0 level then
    let '(g', z) := normals g (List.length action) in
    (g', map (fun xz => (fst xz + fst xz * level * snd xz)%Q) (combine action z))
  else (g, action).

Record policy : Type := Policy {
  p_act : string; p_norm : option (list Q * list Q); p_coefs : list Q; p_noise : Q; p_layers : list matrix }.

(** mujoco.py:66-78; the fuel bounds the length of an episode *)
Fixpoint run (fuel : nat) (p : policy) (e : E) (g : G) (obs : list Q) (total : Q) : result (E * G * Q) :=
  match fuel with
  | O => Err OutOfFuel
  | S fuel =>
      bind (action_of (p_act p) (p_norm p) (p_coefs p) (p_layers p) obs) (fun a =>
      let '(g, a) := noisy (p_noise p) g a in
      bind (step e a) (fun er =>
      let '(e, (obs, r, done)) := er in
      if (done : bool) then Ok (e, g, (total + r)%Q) else run fuel p e g obs (total + r)%Q))
  end.
(** mujoco.py:61-79 *)
Fixpoint rollouts (fuel n : nat) (p : policy) (e : E) (g : G) : result (E * G * list Q) :=
  match n with
  | O => Ok (e, g, [])
  | S n =>
      let '(e, obs) := reset e in
      bind (run fuel p e g obs 0%Q) (fun egr => let '(e, g, r) := egr in
      bind (rollouts fuel n p e g) (fun egs => let '(e, g, rs) := egs in Ok (e, g, r :: rs)))
  end.
(** mujoco.py:81: None is NaN, the mean of no number *)
Definition mean_loss (returns : list Q) : option Q :=
  match returns with [] => None | _ => Some (- (qsum returns / qnat (List.length returns)))%Q end.

(** core.py:100-121 _simulate *)
Definition simulate (fuel n : nat) (deterministic : bool) (random_state : option Z) (p : policy) (h : H) (g : G)
  : result (G * option Q) :=
  let '(g, seed) := if deterministic then (g, random_state) else let '(g, z) := randint g in (g, Some z) in
  bind (rollouts fuel n p (seeded seed h) g) (fun egs => let '(_, g, rs) := egs in Ok (g, mean_loss rs)).
End Control.
