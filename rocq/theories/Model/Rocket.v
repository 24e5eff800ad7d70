(** The rocket simulation: /repo/nevergrad/functions/rocket/rocket.py.
    Exact real numbers. The forces (gravity and drag), the distance to the center of the Earth, round(_, 6), the direction of the launch and
    the starting point are arbitrary. *)
From Coq Require Import Bool Arith List Reals Lra.
From Verif Require Import Model.Prelude.
Import ListNotations.
Open Scope R_scope.
Open Scope list_scope.

(** thrust and time of the engine: rocket.py:171-199 *)
Definition engine : list (R * R) :=
  [(0, 0); (946/1000, 31/1000); (4826/1000, 92/1000); (9936/1000, 139/1000); (14090/1000, 192/1000); (11446/1000, 209/1000);
   (7381/1000, 231/1000); (6151/1000, 248/1000); (5489/1000, 292/1000); (4921/1000, 370/1000); (4448/1000, 475/1000); (4258/1000, 671/1000);
   (4542/1000, 702/1000); (4164/1000, 723/1000); (4448/1000, 850/1000); (4353/1000, 1063/1000); (4353/1000, 1211/1000); (4069/1000, 1242/1000);
   (4258/1000, 1303/1000); (4353/1000, 1468/1000); (4448/1000, 1656/1000); (4448/1000, 1821/1000); (2933/1000, 1834/1000); (1325/1000, 1847/1000);
   (0, 1860/1000)].
(** thrust_list and thrust_time_list: rocket.py:201-202 *)
Definition times : list R := map snd engine.
Definition base : list R := map fst (removelast engine).
Fixpoint differences (l : list R) : list R :=
  match l with a :: (b :: _) as l' => (b - a) :: differences l' | _ => [] end.
Definition durations : list R := differences times.
Definition rsum (l : list R) : R := fold_right Rplus 0 l.
(** np.multiply *)
Definition multiply (a b : list R) : list R := map (fun p => fst p * snd p) (combine a b).
(** total_thrust: rocket.py:203 *)
Definition total_thrust : R := rsum (multiply base durations).
(** rocket.py:205-209 *)
Definition modified (bias : list R) : list R :=
  let l := multiply base (map exp bias) in
  map (fun t => t * total_thrust / rsum (multiply l durations)) l.

(** rocket.py:160-168 *)
Definition roc_mass : R := 472/10000.
Definition eng_mass_initial : R := 24/1000.
Definition eng_mass_final : R := 132/10000.
Definition final_roc_mass : R := roc_mass + eng_mass_final.
(** the total mass after each row: rocket.py:220-236; [total] is np.sum(thrust_list) *)
Fixpoint masses (total reman : R) (rows : list R) : result (list R) :=
  match rows with
  | [] => Ok []
  | t :: rows' =>
      let percentage := t / total in
      if Rlt_dec percentage (- (1 / 100000)) then Err AssertionError
      else if Rlt_dec 1 percentage then Err AssertionError
      else let reman := reman - reman * percentage in
           bind (masses total reman rows') (fun ms => Ok (roc_mass + reman :: ms))
  end.
(** the last row of the table is not modified: rocket.py:211-212 *)
Definition mass_list (bias : list R) : result (list R) :=
  let l := modified bias in masses (rsum l) eng_mass_initial (l ++ [0]).

Section Flight.
  Record body : Type := Body { b_x : R; b_y : R; b_z : R; b_vx : R; b_vy : R; b_vz : R }.
  Variable force : body -> R -> R * R * R.      (* net_force *)
  Variable norm : R -> R -> R -> R.
  Variable rnd : R -> R.
  Variable dx dy dz : R.                        (* sin theta cos phi, sin theta sin phi, cos theta *)
  Variable x0 y0 z0 : R.

  (** Euler step; positions are moved for [dt], velocities for [dv] *)
  Definition euler (b : body) (f : R * R * R) (t m dt dv : R) : body :=
    let '(fx, fy, fz) := f in
    Body (b_x b + b_vx b * dt) (b_y b + b_vy b * dt) (b_z b + b_vz b * dt)
         (b_vx b + (t * dx + fx) * dv / m) (b_vy b + (t * dy + fy) * dv / m) (b_vz b + (t * dz + fz) * dv / m).
  (** while the engine is firing: rocket.py:250-271, for all but the last two rows: thrust, mass, time and time of the next row.
      The heights; the last first *)
  Fixpoint firing (rows : list (R * R * (R * R))) (b : body) (r : R) (zs : list R) : body * R * list R :=
    match rows with
    | [] => (b, r, zs)
    | (t, m, (time, next)) :: rows' =>
        let r := norm (b_x b) (b_y b) (b_z b) in
        let b := euler b (force b m) t m time (next - time) in
        firing rows' b r (rnd (b_z b) :: zs)
    end.
  (** after thrust: rocket.py:273-296 *)
  Fixpoint falling (fuel : nat) (b : body) (r r0 : R) (zs : list R) : result (list R) :=
    if Rlt_dec r0 r then
      match fuel with
      | O => Err OutOfFuel
      | S fuel =>
          let r := norm (b_x b) (b_y b) (b_z b) in
          let b := euler b (force b final_roc_mass) 0 final_roc_mass (1/20) (1/20) in
          falling fuel b r r0 (rnd (b_z b) :: zs)
      end
    else Ok zs.
  Definition height : R := 3032708353202 / 1000000.
  Definition maximum (z : R) (zs : list R) : R := fold_right Rmax z zs.
  (** rocket.py:27-298; the heights start with the one of the launch, not rounded *)
  Definition rocket (fuel : nat) (bias : list R) : result R :=
    if negb (List.length bias =? 24)%nat then Err AssertionError
    else bind (mass_list bias) (fun ms =>
      let rows := firstn 23 (combine (combine (modified bias) ms) (combine times (tl times))) in
      let '(b, r, zs) := firing rows (Body x0 y0 z0 0 0 0) (norm x0 y0 z0) [] in
      bind (falling fuel b r (norm x0 y0 z0) zs) (fun zs => Ok (1 - maximum z0 zs / height))).
End Flight.
