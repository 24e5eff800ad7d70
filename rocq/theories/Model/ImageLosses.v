(** Losses on images: /repo/nevergrad/functions/images/imagelosses.py:21-43 and 88-103. Simplification: exact numbers. *)
From Coq Require Import Bool Arith List QArith Lia.
From Verif Require Import Model.Prelude Model.MultiValue Model.Planning.
Import ListNotations.
Open Scope nat_scope.
Open Scope list_scope.

(** an array: its shape, and its values gathered along the last axis (pixels) *)
Record image : Type := Image { i_shape : list nat; i_pixels : list (list Q) }.
Definition values (x : image) : list Q := concat (i_pixels x).
Fixpoint shape_eqb (a b : list nat) : bool :=
  match a, b with [], [] => true | x :: a, y :: b => (x =? y) && shape_eqb a b | _, _ => false end.
(** x.min(), x.max(): an empty array raises *)
Definition array_min (x : image) : result Q := match values x with [] => Err ValueError | q :: l => Ok (fold_left qmin l q) end.
Definition array_max (x : image) : result Q := match values x with [] => Err ValueError | q :: l => Ok (fold_left qmax l q) end.
Definition check (b : bool) : result unit := if b then Ok tt else Err AssertionError.

(** imagelosses.py:25-32: what the loss keeps *)
Definition image_loss (reference : option image) : result (option image) :=
  match reference with
  | None => Ok None
  | Some r =>
      bind (check (length (i_shape r) =? 3)) (fun _ =>
      bind (array_min r) (fun lo => bind (check (qle 0 lo)) (fun _ =>
      bind (array_max r) (fun hi => bind (check (qle hi 256)) (fun _ =>
      bind (check (qlt 3 hi)) (fun _ => Ok (Some r)))))))
  end.
(** x - self.reference, of the same shape *)
Definition differences (x r : list Q) : list Q := map (fun ab => (fst ab - snd ab)%Q) (combine x r).
(** :41, :90, :98: the shape is compared to an attribute which only exists with a reference *)
Definition with_reference (ref : option image) (x : image) (f : image -> result Q) : result Q :=
  match ref with
  | None => Err AttributeError
  | Some r => bind (check (shape_eqb (i_shape x) (i_shape r))) (fun _ => f r)
  end.
(** imagelosses.py:39-43 *)
Definition sum_absolute (ref : option image) (x : image) : result Q :=
  with_reference ref x (fun r => Ok (qsum (map qabs (differences (values x) (values r))))).
(** imagelosses.py:88-92 *)
Definition sum_square (ref : option image) (x : image) : result Q :=
  with_reference ref x (fun r => Ok (qsum (map (fun d => (d * d)%Q) (differences (values x) (values r))))).
(** np.sort *)
Fixpoint insert (q : Q) (l : list Q) : list Q :=
  match l with [] => [q] | p :: l => if qle q p then q :: p :: l else p :: insert q l end.
Definition sort (l : list Q) : list Q := fold_right insert [] l.
(** imagelosses.py:96-103 *)
Definition histogram (ref : option image) (x : image) : result Q :=
  with_reference ref x (fun r =>
    bind (check (nth 2 (i_shape x) 0 =? 3)) (fun _ =>
    Ok (qsum (differences (sort (map qsum (i_pixels x))) (sort (map qsum (i_pixels r))))))).
