(** Model of the LSGO testbed: nevergrad/functions/lsgo/_core.py and _funcs.py.  Numbers are exact reals, arrays are lists
    (numpy's broadcasting of arrays of size one is left out: sizes must agree).  The losses which are written as in
    corefuncs.py are those of Model/CoreFuncs.  The cached weights of [Asymmetry] and [Illconditionning] (_core.py:75-78,
    :90-93) are those of the current size: each of these objects belongs to one chunk, which sees one size only. *)
From Coq Require Import Reals Arith ZArith Bool List.
From Verif.Model Require Import Prelude.
From Verif.Model Require CoreFuncs.
Import ListNotations.
Open Scope R_scope.

Definition vec : Type := list R.
(** np.linspace(0, b, d)[i] *)
Definition linspace (b : R) (d i : nat) : R := if (d =? 1)%nat then 0 else b * INR i / (INR d - 1).
(** _core.py:58-67 [irregularity] *)
Definition sign (a : R) : R := if Rlt_dec 0 a then 1 else if Rlt_dec a 0 then -1 else 0.
Definition irregular (a : R) : R :=
  let ahat := ln (if Req_EM_T a 0 then 1 else Rabs a) in
  let c1 := (1 / 2) * (10 + 55 / 10) + (1 / 2) * (10 - 55 / 10) * sign a in
  let c2 := (1 / 2) * (31 / 10 + 79 / 10) + (1 / 2) * (79 / 10 - 31 / 10) * sign a in
  sign a * exp (ahat + (49 / 1000) * (sin (c1 * ahat) + sin (c2 * ahat))).
(** Python's [a ** e] where the exponent is 1 or the base is positive *)
Definition power (a e : R) : R := if Rlt_dec 0 a then Rpower a e else a.
(** _core.py:70-82 [Asymmetry]: the exponent is 1 unless the coordinate is positive *)
Definition asym (beta : R) (d i : nat) (a : R) : R := power a (1 + linspace beta d i * sqrt (Rmax 0 a)).
(** _core.py:85-96 [Illconditionning] *)
Definition ill (alpha : R) (d i : nat) (a : R) : R := Rpower alpha (linspace (1 / 2) d i) * a.

Inductive transf : Type :=
| TIrregular
| TAsym (beta : R)
| TIll (alpha : R)
| TShift (v : vec)
| TIndex (inds : list Z) (indim : Z)
| TRot (rotation : list vec).
Definition vsub (x y : vec) : result vec := if (length x =? length y)%nat then Ok (CoreFuncs.minus x y) else Err ValueError.
(** x[indices], for one index *)
Definition item (x : vec) (i : Z) : result R :=
  let i := if (i <? 0)%Z then (i + Z.of_nat (length x))%Z else i in
  if (i <? 0)%Z then Err IndexError else match nth_error x (Z.to_nat i) with Some a => Ok a | None => Err IndexError end.
Fixpoint items (x : vec) (inds : list Z) : result vec :=
  match inds with [] => Ok [] | i :: inds => bind (item x i) (fun a => bind (items x inds) (fun l => Ok (a :: l))) end.
Definition dot (u v : vec) : R := CoreFuncs.rsum (map (fun p => fst p * snd p) (combine u v)).
(** _core.py:58-132 [__call__], _funcs.py:51-57 *)
Definition apply_t (t : transf) (x : vec) : result vec :=
  match t with
  | TIrregular => Ok (map irregular x)
  | TAsym beta => Ok (CoreFuncs.mapi (asym beta (length x)) x)
  | TIll alpha => Ok (CoreFuncs.mapi (ill alpha (length x)) x)
  | TShift v => vsub x v
  | TIndex inds indim => if (Z.of_nat (length x) =? indim)%Z then items x inds else Err ValueError
  | TRot rows => if forallb (fun r => (length r =? length x)%nat) rows then Ok (map (fun r => dot r x) rows) else Err ValueError
  end.
Fixpoint apply_all (ts : list transf) (x : vec) : result vec :=
  match ts with [] => Ok x | t :: ts => bind (apply_t t x) (apply_all ts) end.

(** _core.py:16-52 *)
Inductive loss : Type := LSphere | LElliptic (d : nat) | LRastrigin | LAckley | LSchwefel | LRosenbrock.
Definition loss_value (l : loss) (x : vec) : result R :=
  match l with
  | LSphere => Ok (CoreFuncs.sphere x)
  | LElliptic d => if (d =? length x)%nat then Ok (CoreFuncs.ellipsoid x) else Err ValueError
  | LRastrigin => Ok (CoreFuncs.rastrigin x)
  | LAckley => CoreFuncs.ackley x
  | LSchwefel => Ok (CoreFuncs.schwefel_1_2 x)
  | LRosenbrock => Ok (CoreFuncs.rosenbrock x)
  end.

(** _core.py:140-155 [split] *)
Fixpoint nodupb (l : list Z) : bool := match l with [] => true | x :: l => negb (existsb (Z.eqb x) l) && nodupb l end.
Definition zsum (l : list Z) : Z := fold_right Z.add 0%Z l.
Definition size {A} (l : list A) : Z := Z.of_nat (length l).
(** l[a:b] *)
Definition bound {A} (l : list A) (i : Z) : nat := Z.to_nat (if (i <? 0)%Z then Z.max 0 (i + size l) else Z.min i (size l)).
Definition slice {A} (l : list A) (a b : Z) : list A := firstn (bound l b - bound l a) (skipn (bound l a) l).
Fixpoint split_from (p : list Z) (overlap start : Z) (dims : list Z) : list (list Z) * Z :=
  match dims with
  | [] => ([], start)
  | d :: dims => let (gs, e) := split_from p overlap (start + (d - overlap)) dims in (slice p start (start + d) :: gs, e)
  end.
Definition split (p : list Z) (dims : list Z) (overlap : Z) : result (list (list Z)) :=
  let expected := (zsum dims - (size dims - 1) * overlap)%Z in
  if negb (nodupb p) then Err AssertionError else
  match p with
  | [] => Err ValueError
  | x :: l =>
      if negb (fold_left Z.min l x =? 0)%Z then Err AssertionError else
      if negb (fold_left Z.max l x =? size p - 1)%Z then Err AssertionError else
      if negb (size p =? expected)%Z then Err ValueError else
      let (gs, e) := split_from p overlap 0 dims in
      if (e =? size p - overlap)%Z then Ok gs else Err AssertionError
  end.

(** _funcs.py:39-67 [FunctionChunk] *)
Record chunk : Type := Chunk { c_scalar : R; c_transforms : list transf; c_loss : loss }.
Definition new_chunk (ts : list transf) (l : loss) : chunk := Chunk 1 ts l.
Definition rmul (scalar : R) (c : chunk) : chunk := Chunk (c_scalar c * scalar) (c_transforms c) (c_loss c).
Definition chunk_call (c : chunk) (x : vec) : result R :=
  bind (apply_all (c_transforms c) x) (fun y => bind (loss_value (c_loss c) y) (fun v => Ok (c_scalar c * v))).
(** _funcs.py:70-93 [LsgoFunction] *)
Record lsgo : Type := Lsgo { l_xopt : vec; l_optimum : option vec; l_chunks : list chunk }.
Definition new_lsgo (xopt : vec) (cs : list chunk) : lsgo := Lsgo xopt (Some xopt) cs.
Fixpoint sum_chunks (cs : list chunk) (x : vec) (acc : R) : result R :=
  match cs with [] => Ok acc | c :: cs => bind (chunk_call c x) (fun v => sum_chunks cs x (acc + v)) end.
Definition call (f : lsgo) (x : vec) : result R := bind (vsub x (l_xopt f)) (fun t => sum_chunks (l_chunks f) t 0).
Definition dimension (f : lsgo) : nat := length (l_xopt f).

(** The sizes of the testbed, _funcs.py:186-192, :331, :352-356: the classes are modelled for any such sizes *)
Record sizes : Type := Sizes { z_total : Z; z_rest : Z; z_small : Z; z_overlap : Z; z_25 : Z; z_50 : Z; z_100 : Z }.
Definition testbed : sizes := Sizes 1000 700 905 5 25 50 100.
(** What [read_data] (_funcs.py:25-37) found: the arguments of the class *)
Inductive data : Type :=
| DShift (xopt : vec)
| DParts (xopt : vec) (p : list Z) (s : list Z) (w : vec) (r25 r50 r100 : list vec).

(** _core.py:124-128 [Rotation.__init__]: a square matrix *)
Definition square (m : list vec) : bool := forallb (fun r => (length r =? length m)%nat) m.
Definition rotations (z : sizes) (r25 r50 r100 : list vec) : result (list (Z * list vec)) :=
  if square r25 && square r50 && square r100 then Ok [(z_25 z, r25); (z_50 z, r50); (z_100 z, r100)] else Err AssertionError.
(** the last value wins, as in a dict *)
Definition rotation_of (rots : list (Z * list vec)) (d : Z) : result (list vec) :=
  match find (fun kv => (fst kv =? d)%Z) (rev rots) with Some kv => Ok (snd kv) | None => Err KeyError end.

(** _funcs.py:176-206 [_MultiPartFunction.__init__]; [parts side dim]: [_make_transforms], [_make_loss] *)
Section MultiPart.
  Variable z : sizes.
  Variable overlap : Z.
  Variable parts : bool -> nat -> list transf * loss.
  Fixpoint weighted (rots : list (Z * list vec)) (indim : Z) (w : vec) (gs : list (list Z)) : result (list chunk) :=
    match w, gs with
    | coeff :: w, g :: gs =>
        bind (rotation_of rots (size g)) (fun r =>
        let (ts, l) := parts false (length g) in
        bind (weighted rots indim w gs) (fun cs => Ok (rmul coeff (new_chunk ([TIndex g indim; TRot r] ++ ts) l) :: cs)))
    | _, _ => Ok []
    end.
  Definition multipart (xopt : vec) (p s : list Z) (w : vec) (r25 r50 r100 : list vec) : result lsgo :=
    let remaining := (z_total z - zsum s)%Z in
    if negb ((remaining =? 0)%Z || (remaining =? z_rest z)%Z) then Err AssertionError else
    if negb (size xopt =? size p)%Z then Err AssertionError else
    bind (split p (s ++ (if (remaining =? 0)%Z then [] else [remaining])) overlap) (fun gs =>
    bind (rotations z r25 r50 r100) (fun rots =>
    if negb (size w =? size gs - (if (remaining =? z_rest z)%Z then 1 else 0))%Z then Err AssertionError else
    bind (weighted rots (size p) w gs) (fun cs =>
    if (remaining =? 0)%Z then Ok (new_lsgo xopt cs) else
    match rev gs with
    | [] => Err IndexError
    | g :: _ => let (ts, l) := parts true (length g) in Ok (new_lsgo xopt (cs ++ [new_chunk ([TIndex g (size p)] ++ ts) l]))
    end))).
End MultiPart.

(** _funcs.py:335-370 [ConflictingSchwefel] *)
Fixpoint conflicting_chunks (rots : list (Z * list vec)) (indim : Z) (xopt : vec) (w : vec) (gs xs : list (list Z)) : result (list chunk) :=
  match w, gs, xs with
  | coeff :: w, g :: gs, xi :: xs =>
      bind (items xopt xi) (fun v =>
      bind (rotation_of rots (size g)) (fun r =>
      bind (conflicting_chunks rots indim xopt w gs xs) (fun cs =>
      Ok (rmul coeff (new_chunk [TIndex g indim; TShift v; TRot r; TIrregular; TAsym (2 / 10)] LSchwefel) :: cs))))
  | _, _, _ => Ok []
  end.
Definition arange (n : Z) : list Z := map Z.of_nat (seq 0 (Z.to_nat n)).
Definition conflicting (z : sizes) (xopt : vec) (p s : list Z) (w : vec) (r25 r50 r100 : list vec) : result lsgo :=
  if negb (size xopt =? z_total z)%Z then Err AssertionError else
  if negb (size p =? z_small z)%Z then Err AssertionError else
  bind (split p s (z_overlap z)) (fun gs =>
  bind (split (arange (z_total z)) s 0) (fun xs =>
  bind (rotations z r25 r50 r100) (fun rots =>
  if negb (size w =? size gs)%Z then Err AssertionError else
  bind (conflicting_chunks rots (size p) xopt w gs xs) (fun cs =>
  Ok (Lsgo (repeat 0 (Z.to_nat (z_small z))) None cs))))).

(** The classes, _funcs.py:111-383 *)
Definition scaled : list transf := [TIrregular; TAsym (2 / 10); TIll 10].
Definition p_elliptic (side : bool) (d : nat) : list transf * loss := ([TIrregular], LElliptic d).
Definition p_rastrigin (side : bool) (d : nat) : list transf * loss := (scaled, LRastrigin).
Definition p_ackley (side : bool) (d : nat) : list transf * loss := (scaled, LAckley).
Definition p_schwefel (side : bool) (d : nat) : list transf * loss :=
  if side then ([], LSphere) else ([TIrregular; TAsym (2 / 10)], LSchwefel).
Inductive cls : Type :=
| Shifted (ts : list transf) (l : nat -> loss)
| Rosenbrock
| Multi (overlap : bool) (parts : bool -> nat -> list transf * loss)
| Conflicting.
Definition class_of (number : nat) : option cls :=
  match number with
  | 1 => Some (Shifted [TIrregular] LElliptic)
  | 2 => Some (Shifted scaled (fun _ => LRastrigin))
  | 3 => Some (Shifted scaled (fun _ => LAckley))
  | 4 | 8 => Some (Multi false p_elliptic)
  | 5 | 9 => Some (Multi false p_rastrigin)
  | 6 | 10 => Some (Multi false p_ackley)
  | 7 | 11 => Some (Multi false p_schwefel)
  | 12 => Some Rosenbrock
  | 13 => Some (Multi true p_schwefel)
  | 14 => Some Conflicting
  | 15 => Some (Shifted [TIrregular; TAsym (2 / 10)] (fun _ => LSchwefel))
  | _ => None
  end%nat.
(** _funcs.py:386-404 [make_function]; a class which does not get its arguments raises TypeError *)
Definition make_function (z : sizes) (number : nat) (d : data) : result lsgo :=
  if (number =? 0)%nat then Err ValueError else
  match class_of number, d with
  | None, _ => Err KeyError
  | Some (Shifted ts l), DShift xopt => Ok (new_lsgo xopt [new_chunk ts (l (length xopt))])
  | Some Rosenbrock, DShift xopt => Ok (Lsgo xopt (Some (map (fun a => a + 1) xopt)) [new_chunk [] LRosenbrock])
  | Some (Multi o parts), DParts xopt p s w r25 r50 r100 => multipart z (if o then z_overlap z else 0%Z) parts xopt p s w r25 r50 r100
  | Some Conflicting, DParts xopt p s w r25 r50 r100 => conflicting z xopt p s w r25 r50 r100
  | Some _, _ => Err TypeError
  end.
