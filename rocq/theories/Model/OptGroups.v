(** Groups of optimizers and seeds of experiment plans: /repo/nevergrad/benchmark/optgroups.py:21-42 and xpbase.py:118-134. *)
From Coq Require Import Bool Arith List String ZArith Lia.
From Verif Require Import Model.Prelude.
Import ListNotations.
Open Scope nat_scope.
Open Scope list_scope.

Section Groups.
(** an optimizer: a name or a configured optimizer, compared by == *)
Variable O : Type.
Variable eqb : O -> O -> bool.
(** the registry: the groups by name; the function of a group is replaced by the list it returns, the same at each call *)
Variable registry : list (string * list O).
(** np.random.RandomState(seed).shuffle *)
Variable shuffle : Z -> list O -> list O.

(** optgroups.py:36 registry[name] *)
Fixpoint lookup (name : string) (r : list (string * list O)) : option (list O) :=
  match r with
  | [] => None
  | (k, g) :: r' => if String.eqb name k then Some g else lookup name r'
  end.
(** optgroups.py:37-38 *)
Definition add (optims : list O) (o : O) : list O := if existsb (eqb o) optims then optims else optims ++ [o].
(** optgroups.py:34-38 *)
Fixpoint gather (names : list string) (optims : list O) : result (list O) :=
  match names with
  | [] => Ok optims
  | n :: names' =>
      match lookup n registry with
      | None => Err KeyError
      | Some g => gather names' (fold_left add g optims)
      end
  end.
(** optgroups.py:21-42 *)
Definition get_optimizers (names : list string) (seed : option Z) : result (list O) :=
  bind (gather names []) (fun l => Ok (match seed with Some s => shuffle s l | None => l end)).
End Groups.

Section Seeds.
(** np.random.RandomState(seed) and its randint(2**32, dtype=np.uint32) *)
Variable G : Type.
Variables (start : Z -> G) (draw : G -> G * Z).
(** xpbase.py:118-134: a generator: its state, and the next value *)
Definition create_seed_generator (seed : option Z) : option G := option_map start seed.
(** xpbase.py:134: what one step of the generator yields *)
Definition next_seed (g : option G) : option G * option Z :=
  match g with
  | None => (None, None)
  | Some g => let '(g', z) := draw g in (Some g', Some z)
  end.
(** the first n values of the generator of xpbase.py:133-134 *)
Fixpoint take_seeds (n : nat) (g : option G) : list (option Z) :=
  match n with O => [] | S n => let '(g', z) := next_seed g in z :: take_seeds n g' end.
End Seeds.
