(** Model of [_TBPSA] and [EDA] (nevergrad/optimization/optimizerlib.py), over the reals.
    The standardised data of a candidate is what was given to it (no bounds); vectors are
    functions of the coordinate.  Losses are rationals. *)
From Coq Require Import Reals QArith List Arith Bool.
From Verif.Model Require Import Prelude MultiValue PopSize.
Import ListNotations.
Open Scope nat_scope.

Definition vec : Type := nat -> R.
(** a candidate: its data, [candidate._meta["sigma"]] if any (a candidate made by the
    constraint solver, base.py:537 and 882, has none) and [candidate.loss] once told *)
Record cand : Type := Cand { cd_data : vec; cd_sigma : option R }.
Record child : Type := Child { ch_cand : cand; ch_loss : Q }.

(** [sorted(children, key=base._loss)]: stable *)
Fixpoint ch_insert (c : child) (l : list child) : list child :=
  match l with
  | [] => [c]
  | d :: l' => if qle (ch_loss c) (ch_loss d) then c :: l else d :: ch_insert c l'
  end.
Definition ch_sort (l : list child) : list child := fold_right ch_insert [] l.

Definition rsum (l : list R) : R := fold_right Rplus 0%R l.
(** sum over the coordinates below [n] *)
Definition vsum (n : nat) (f : vec) : R := rsum (map f (seq 0 n)).

(** optimizerlib.py:1283-1288, 1136 [sum(arrays) / mu] *)
Definition center_of (mu : nat) (parents : list child) : vec :=
  fun i => (rsum (map (fun c => cd_data (ch_cand c) i) parents) / INR mu)%R.

(** optimizerlib.py:1289, 1137: the geometric mean; [log(0)] is -inf, whose exponential is 0 *)
Definition geometric (mu : nat) (l : list R) : R :=
  if in_dec Req_EM_T 0%R l then 0%R else exp (rsum (map ln l) / INR mu).
Fixpoint sigmas_of (l : list child) : result (list R) :=
  match l with
  | [] => Ok []
  | c :: l' => match cd_sigma (ch_cand c) with
               | None => Err KeyError
               | Some s => match sigmas_of l' with Ok r => Ok (s :: r) | Err e => Err e end
               end
  end.

(** optimizerlib.py:1230-1251 fields of [_TBPSA], and the candidates asked and not yet told;
    [None] among the parents stands for the parametrization *)
Record tbpsa : Type := TB {
  tb_pop : popsize; tb_center : vec; tb_sigma : R;
  tb_parents : list (option child); tb_children : list child; tb_pending : list cand }.

Section TBPSA.
  Variable dimension : nat.

  (** optimizerlib.py:1230-1251 [__init__], [initial_popsize] being given *)
  Definition tb_init (initial_popsize num_workers : nat) : tbpsa :=
    TB (ps_init (4 * initial_popsize) initial_popsize dimension num_workers)
       (fun _ => 0%R) 1%R [None] [] [].

  (** optimizerlib.py:1263-1271 [_internal_ask_candidate]; [g] and [gs] are the normal draws *)
  Definition tb_propose (g : R) (gs : vec) (s : tbpsa) : cand :=
    let mutated := (tb_sigma s * exp (g / sqrt (INR dimension)))%R in
    Cand (fun i => tb_center s i + mutated * gs i)%R (Some mutated).
  (** optimizerlib.py:1266: the parent whose heritage is passed on; Err for a modulo by zero *)
  Definition tb_parent (num_ask : nat) (s : tbpsa) : result (option child) :=
    if (length (tb_parents s) =? 0) then Err ZeroDivisionError
    else match nth_error (tb_parents s) (num_ask mod length (tb_parents s)) with
         | Some p => Ok p
         | None => Err IndexError
         end.

  (** optimizerlib.py:1273-1289 [_internal_tell_candidate]; [loss] is the loss with penalties *)
  Definition tb_tell (c : child) (loss : Q) (s : tbpsa) : tbpsa * result unit :=
    let pop := ps_add loss (tb_pop s) in
    let children := tb_children s ++ [c] in
    if (ps_lambda pop <=? length children) then
      let parents := firstn (ps_mu pop) (ch_sort children) in
      let center := center_of (ps_mu pop) parents in
      match sigmas_of parents with
      | Err e => (TB pop center (tb_sigma s) (map Some parents) [] (tb_pending s), Err e)
      | Ok l => (TB pop center (geometric (ps_mu pop) l) (map Some parents) [] (tb_pending s), Ok tt)
      end
    else (TB pop (tb_center s) (tb_sigma s) (tb_parents s) children (tb_pending s), Ok tt).

  (** optimizerlib.py:1291-1295 [_internal_tell_not_asked] *)
  Definition guessed_sigma (data center : vec) : R :=
    (sqrt (vsum dimension (fun i => (data i - center i) * (data i - center i))) / sqrt (INR dimension))%R.
  Definition tb_tell_not_asked (data : vec) (l0 loss : Q) (s : tbpsa) : tbpsa * result unit :=
    tb_tell (Child (Cand data (Some (guessed_sigma data (tb_center s)))) l0) loss s.

  (** What happens: an ask, an ask answered by the constraint solver (base.py:535-537), the
      tell of the [i]-th candidate waiting ([l0] becomes its loss, [l] is given to the
      algorithm), the tell of a point which was not asked. *)
  Inductive tb_op : Type :=
  | TAsk (g : R) (gs : vec)
  | TAskSolved (data : vec)
  | TTell (i : nat) (l0 l : Q)
  | TInject (data : vec) (l0 l : Q).

  Definition with_pending (p : list cand) (s : tbpsa) : tbpsa :=
    TB (tb_pop s) (tb_center s) (tb_sigma s) (tb_parents s) (tb_children s) p.
  Definition tb_step (s : tbpsa) (o : tb_op) : tbpsa * result unit :=
    match o with
    | TAsk g gs => (with_pending (tb_pending s ++ [tb_propose g gs s]) s, Ok tt)
    | TAskSolved d => (with_pending (tb_pending s ++ [Cand d None]) s, Ok tt)
    | TTell i l0 l =>
        match nth_error (tb_pending s) i with
        | None => (s, Ok tt)
        | Some c => tb_tell (Child c l0) l (with_pending (firstn i (tb_pending s) ++ skipn (S i) (tb_pending s)) s)
        end
    | TInject d l0 l => tb_tell_not_asked d l0 l s
    end.
  Definition tb_run (s : tbpsa) (ops : list tb_op) : tbpsa := fold_left (fun s o => fst (tb_step s o)) ops s.
End TBPSA.

(** ** EDA *)
Definition mat : Type := nat -> nat -> R.
(** optimizerlib.py:1080-1095 fields *)
Record eda : Type := EDA {
  ed_pop : popsize; ed_center : vec; ed_cov : mat; ed_sigma : R;
  ed_parents : list (option child); ed_children : list child }.

Section EDA.
  (** optimizerlib.py:1077-1078 [_POPSIZE_ADAPTATION] and [_COVARIANCE_MEMORY] *)
  Variables adaptation memory : bool.

  (** optimizerlib.py:1080-1095 [__init__] *)
  Definition ed_init (dimension num_workers : nat) : eda :=
    EDA (ps_init (4 * dimension) dimension dimension num_workers) (fun _ => 0%R)
        (fun i j => if i =? j then 1%R else 0%R) 1%R [None] [].

  (** optimizerlib.py:1127-1128 [centered_arrays.T.dot(centered_arrays)] *)
  Definition scatter (center : vec) (arrays : list vec) : mat :=
    fun i j => rsum (map (fun x => (x i - center i) * (x j - center j))%R arrays).

  (** optimizerlib.py:1118-1139 [_internal_tell_candidate]: after a KeyError (a parent without
      "sigma") the centre and the covariance are changed already, and the children are kept, sorted *)
  Definition ed_tell (c : child) (loss : Q) (s : eda) : eda * result unit :=
    let children := ed_children s ++ [c] in
    let pop := if adaptation then ps_add loss (ed_pop s) else ed_pop s in
    if (ps_lambda pop <=? length children) then
      let children := ch_sort children in
      let mu := ps_mu pop in
      let best := firstn mu children in
      let cov := scatter (ed_center s) (map (fun c => cd_data (ch_cand c)) best) in
      let mem := if memory then 0.9%R else 0%R in
      let cov' := fun i j => (ed_cov s i j * mem + (1 - mem) * cov i j)%R in
      let center := center_of mu best in
      match sigmas_of best with
      | Err e => (EDA pop center cov' (ed_sigma s) (ed_parents s) children, Err e)
      | Ok l => (EDA pop center cov' (geometric mu l) (map Some best) [], Ok tt)
      end
    else (EDA pop (ed_center s) (ed_cov s) (ed_sigma s) (ed_parents s) children, Ok tt).

  (** the tells of a run: each candidate (any data: it is a normal draw), its loss and the loss
      with penalties; points which were not asked are refused (optimizerlib.py:1141-1142) *)
  Definition ed_run (s : eda) (tells : list (child * Q)) : eda :=
    fold_left (fun s t => fst (ed_tell (fst t) (snd t) s)) tells s.
End EDA.
