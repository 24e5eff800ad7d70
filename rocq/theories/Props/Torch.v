(** C122: training a module with an optimizer. *)
From Coq Require Import Arith QArith Lqa Lia Bool List.
From Verif.Model Require Import Prelude MultiValue Torch.
From Verif.Spec Require Import Torch.
From Verif.Proofs Require Import MultiValue Torch.
Import ListNotations.
Open Scope nat_scope.

(** ** Training: whatever the optimizer and the batches, the optimizer is told once about each candidate but the last, in
    the order in which they were asked. Each loss is the one of the module holding the candidate, except the first one, which
    is the loss of the initial module. In the end the module holds the last candidate, about which nothing was told. *)
Theorem C122_training : forall S (ask : S -> S * weights) tell f32 bound parameters s t batches t' told,
  asks_shape ask parameters -> torch_init ask bound parameters s = Ok t -> train ask tell f32 bound batches t = (t', told) ->
  length told = length batches
  /\ (exists candidates, length candidates = Datatypes.S (length batches) /\ hd [] candidates = snd (ask s)
        /\ map fst told = removelast candidates
        /\ t_module t' = match batches with [] => parameters | _ => holding f32 bound (last candidates []) end)
  /\ (forall k b c l, nth_error batches k = Some b -> nth_error told k = Some (c, l) ->
        l = b (if k =? 0 then parameters else holding f32 bound c)).
Proof.
  intros S ask tell f32 bound ps s t bs t' told A I T. pose proof (init_pos _ _ _ _ _ I) as Pos. destruct (init_spec ask bound ps s t I) as (M & C & W).
  assert (E : told = snd (train ask tell f32 bound bs t)) by now rewrite T. assert (E' : t' = fst (train ask tell f32 bound bs t)) by now rewrite T.
  assert (Sh : same_shape ps (t_module t)) by (rewrite M; apply shape_refl).
  pose proof (train_candidates ask tell f32 bound bs t) as Cs. rewrite <- E in Cs.
  assert (La := asked_length ask tell f32 bound bs t).
  split; [rewrite <- (map_length fst), Cs, firstn_length_le by (cbn; lia); reflexivity|]. split.
  - exists (t_candidate t :: asked ask tell f32 bound bs t). split; [exact (f_equal Datatypes.S La)|]. split; [exact C|]. split.
    + rewrite Cs, removelast_firstn_len. f_equal. cbn [length Nat.pred]. symmetry. exact La.
    + rewrite E'. destruct (train_module ask tell f32 bound Pos bs ps A t Sh) as [K _]. rewrite K. destruct bs as [|b bs]; [exact M|reflexivity].
  - intros k b c l Hb Hk. rewrite E in Hk. rewrite (train_losses ask tell f32 bound Pos bs ps A t Sh k b c l Hb Hk). destruct k; [now rewrite M|reflexivity].
Qed.
Print Assumptions C122_training.

(** ** With an optimizer whose first candidate is the initial value, each loss is the one of its candidate. *)
Theorem C122_first : forall S (ask : S -> S * weights) tell f32 bound parameters s t batches t' told,
  asks_shape ask parameters -> torch_init ask bound parameters s = Ok t -> holding f32 bound (snd (ask s)) = parameters ->
  train ask tell f32 bound batches t = (t', told) ->
  forall k b c l, nth_error batches k = Some b -> nth_error told k = Some (c, l) -> l = b (holding f32 bound c).
Proof.
  intros S ask tell f32 bound ps s t bs t' told A I H T k b c l Hb Hk.
  destruct (C122_training _ _ _ _ _ _ _ _ _ _ _ A I T) as (_ & (cs & L1 & L2 & L3 & _) & L). rewrite (L k b c l Hb Hk).
  destruct k as [|k]; [|reflexivity]. cbn [Nat.eqb]. f_equal. rewrite <- H, <- L2. f_equal.
  destruct bs as [|b0 bs]; [discriminate Hb|]. destruct told as [|[c0 l0] told]; [discriminate Hk|]. cbn in Hk. injection Hk as -> ->.
  destruct cs as [|c0 [|c1 cs]]; cbn in L1, L3; try lia. cbn [hd]. congruence.
Qed.
Print Assumptions C122_first.

(** ** But with any other one, the first candidate gets the loss of another point. *)
Theorem C122_first_refuted : forall S (ask : S -> S * weights) tell f32 bound parameters s t,
  asks_shape ask parameters -> torch_init ask bound parameters s = Ok t -> holding f32 bound (snd (ask s)) <> parameters ->
  exists b c l, snd (train ask tell f32 bound [b] t) = [(c, l)] /\ c = snd (ask s) /\ ~ (l == b (holding f32 bound c))%Q.
Proof.
  intros S ask tell f32 bound ps s t A I H. destruct (init_spec ask bound ps s t I) as (M & C & _).
  exists (fun m => if weights_dec m ps then 0%Q else 1%Q). rewrite train_step. do 2 eexists. split; [reflexivity|]. split; [exact C|]. rewrite M, C.
  destruct (weights_dec ps ps) as [_|N]; [|congruence]. destruct (weights_dec (holding f32 bound (snd (ask s))) ps) as [N|_]; [contradiction|]. discriminate.
Qed.
Print Assumptions C122_first_refuted.

(** ** The bounds: a module beyond them is refused. Otherwise the module keeps its shapes and stays within the bounds during any
    training, when 32 bits are enough for the bound. *)
Theorem C122_bounds : forall S (ask : S -> S * weights) tell f32 bound parameters s,
  asks_shape ask parameters -> rounding f32 -> (f32 bound == bound)%Q -> (f32 (- bound) == - bound)%Q -> (0 < bound)%Q ->
  (~ within bound parameters -> torch_init ask bound parameters s = Err ValueError)
  /\ (within bound parameters -> exists t, torch_init ask bound parameters s = Ok t
        /\ forall batches, let m := t_module (fst (train ask tell f32 bound batches t)) in within bound m /\ same_shape parameters m).
Proof.
  intros S ask tell f32 bound ps s A Rd B1 B2 Pos. assert (Pos' : (- bound < bound)%Q) by lra. split.
  - intros N. destruct (torch_init ask bound ps s) as [t|e] eqn:I.
    + destruct (init_spec ask bound ps s t I) as (_ & _ & W). contradiction.
    + unfold torch_init in I. destruct (qle bound (- bound)); [congruence|]. destruct (forallb (forallb (inside bound)) ps); [|congruence]. destruct (ask s). discriminate.
  - intros W. destruct (init_ok ask bound ps s Pos' W) as [t I]. exists t. split; [exact I|]. intros bs m. destruct (init_spec ask bound ps s t I) as (M & C & _).
    assert (Sh : same_shape ps (t_module t)) by (rewrite M; apply shape_refl).
    destruct (train_module ask tell f32 bound Pos' bs ps A t Sh) as [K1 K2]. subst m. split; [|exact K2]. rewrite K1. destruct bs; [rewrite M; exact W|].
    apply holding_within; assumption.
Qed.
Print Assumptions C122_bounds.

(** ** But when the bound is rounded up in 32 bits, as 0.1 is, the module leaves the bounds after one step of an optimizer
    which reaches them. *)
Theorem C122_bounds_refuted : forall f32 bound, (0 < bound)%Q -> (bound < f32 bound)%Q ->
  let ask := fun _ : unit => (tt, [[bound + 1]])%Q in let tell := fun (_ : unit) (_ : weights) (_ : Q) => tt in
  exists t, torch_init ask bound [[0%Q]] tt = Ok t /\ asks_shape ask [[0%Q]] /\
  forall b, ~ within bound (t_module (fst (train ask tell f32 bound [b] t))).
Proof.
  intros f32 bound P U ask tell. assert (P' : (- bound < bound)%Q) by lra. assert (W : within bound [[0%Q]]) by (repeat constructor; lra).
  destruct (init_ok ask bound [[0%Q]] tt P' W) as [t I]. exists t. split; [exact I|].
  assert (A : asks_shape ask [[0%Q]]) by (intros []; repeat constructor). split; [exact A|]. intros b K.
  destruct (init_spec ask bound _ tt t I) as (M & C & _). assert (Sh : same_shape [[0%Q]] (t_module t)) by (rewrite M; apply shape_refl).
  destruct (train_module ask tell f32 bound P' [b] [[0%Q]] A t Sh) as [K1 _]. rewrite K1 in K. cbn in K. unfold ask in K. cbn in K.
  assert (E1 : qlt (bound + 1) (- bound) = false) by (apply qlt_false; lra). assert (E2 : qlt bound (bound + 1) = true) by (apply qlt_iff; lra). rewrite E1, E2 in K.
  inversion K as [|? ? K2 _]. subst. inversion K2 as [|? ? K3 _]. subst. lra.
Qed.
Print Assumptions C122_bounds_refuted.

(** an optimizer which counts, two arrays, three batches; the first loss is the one of the initial module *)
Definition ask_ex (s : nat) : nat * weights := (S s, [[qnat s]; [qnat s; 1]])%Q.
Definition tell_ex (s : nat) (_ : weights) (_ : Q) : nat := s.
Definition sum_ex (m : weights) : Q := fold_right Qplus 0%Q (concat m).
Example C122_case : exists t, torch_init ask_ex 2 [[1]; [0; 1]]%Q 1 = Ok t
  /\ map (fun p => Qred (snd p)) (snd (train ask_ex tell_ex (fun q => q) 2 [sum_ex; sum_ex; sum_ex] t)) = [2; 5; 5]%Q.
Proof. eexists. split; [reflexivity|]. reflexivity. Qed.
Example C122_shape_case : asks_shape ask_ex [[1]; [0; 1]]%Q.
Proof. intros s. repeat constructor. Qed.
