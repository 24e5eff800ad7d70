(** C133: groups of optimizers and seeds of experiment plans. *)
From Coq Require Import Bool Arith List String ZArith Lia Sorting.Permutation.
From Verif Require Import Model.Prelude Model.OptGroups Spec.OptGroups Proofs.OptGroups.
Import ListNotations.
Open Scope nat_scope.
Open Scope list_scope.

(** C133: the optimizers of groups are those which belong to one of them, each once; without seed, in the order in which the groups
    give them first; with a seed, the same ones *)
Theorem C133_groups O eqb registry shuffle names seed l :
  (forall a b, eqb a b = true <-> a = b) -> (forall s x, Permutation (shuffle s x) x) ->
  get_optimizers O eqb registry shuffle names seed = Ok l ->
  exists groups, Forall2 (fun n g => lookup O n registry = Some g) names groups /\
    NoDup l /\ (forall o, In o l <-> exists g, In g groups /\ In o g) /\
    (seed = None -> forall a b, before (List.concat groups) a b -> before l a b) /\
    exists l0, get_optimizers O eqb registry shuffle names None = Ok l0 /\ Permutation l l0.
Proof.
  intros Hq Hs H. unfold get_optimizers in *. destruct (gather O eqb registry names []) as [l0|e] eqn:E; [|discriminate].
  destruct (gather_groups _ _ _ _ _ _ E) as [groups F]. exists groups. split; [assumption|].
  rewrite (gather_ok _ _ _ _ _ F) in E. injection E as <-.
  destruct (fold_add O eqb Hq (List.concat groups) [] (NoDup_nil _)) as (N & M & _).
  set (l0 := fold_left (add O eqb) (List.concat groups) []) in *. cbn [bind] in H. injection H as <-.
  assert (P : Permutation (match seed with Some s => shuffle s l0 | None => l0 end) l0) by (destruct seed; [apply Hs|reflexivity]).
  split; [exact (Permutation_NoDup (Permutation_sym P) N)|]. split; [|split].
  - intros o. assert (X : In o (match seed with Some s => shuffle s l0 | None => l0 end) <-> In o l0).
    { split; apply Permutation_in; [exact P|now symmetry]. }
    rewrite X, M, in_concat. cbn [In]. tauto.
  - intros -> a b. now apply fold_before.
  - exists l0. now split.
Qed.
Print Assumptions C133_groups.

(** C133: a name which is not registered raises KeyError, and this is the only failure *)
Theorem C133_unknown O eqb registry shuffle names seed :
  ((exists n, In n names /\ lookup O n registry = None) -> get_optimizers O eqb registry shuffle names seed = Err KeyError) /\
  (Forall (fun n => lookup O n registry <> None) names -> exists l, get_optimizers O eqb registry shuffle names seed = Ok l).
Proof.
  unfold get_optimizers. split.
  - intros H. now rewrite gather_err.
  - intros H. assert (F : exists groups, Forall2 (fun n g => lookup O n registry = Some g) names groups).
    { induction H as [|n names Hn _ [gs F]]; [exists []; constructor|]. destruct (lookup O n registry) as [g|] eqn:E; [|easy].
      exists (g :: gs). now constructor. }
    destruct F as [gs F]. rewrite (gather_ok _ _ _ _ _ F). now eexists.
Qed.
Print Assumptions C133_unknown.

(** C133: giving a group again changes nothing *)
Theorem C133_again O eqb registry shuffle names n seed :
  (forall a b, eqb a b = true <-> a = b) -> In n names ->
  get_optimizers O eqb registry shuffle (names ++ [n]) seed = get_optimizers O eqb registry shuffle names seed.
Proof.
  intros Hq I. unfold get_optimizers. f_equal.
  destruct (gather O eqb registry names []) as [l|e] eqn:E.
  - destruct (gather_groups _ _ _ _ _ _ E) as [gs F]. rewrite (gather_ok _ _ _ _ _ F) in E. injection E as <-.
    assert (G : exists g, lookup O n registry = Some g /\ In g gs).
    { clear -I F. induction F as [|m g names gs Hm F IH]; [easy|]. destruct I as [->|I]; [exists g; split; [assumption|now left]|].
      destruct (IH I) as (g' & A & B). exists g'. split; [assumption|now right]. }
    destruct G as (g & Hg & Ig).
    rewrite (gather_ok O eqb registry (names ++ [n]) (gs ++ [g])) by (apply Forall2_app; [assumption|repeat constructor; assumption]).
    f_equal. rewrite concat_app, fold_left_app. cbn [List.concat]. rewrite app_nil_r. apply fold_absorb; [assumption|].
    intros o Io. destruct (fold_add O eqb Hq (List.concat gs) [] (NoDup_nil _)) as (_ & M & _). apply M. right. apply in_concat. now exists g.
  - assert (X : exists m, In m names /\ lookup O m registry = None).
    { clear -E. revert E. generalize (@nil O). induction names as [|m names IH]; intros l E; [discriminate|]. cbn [gather] in E.
      destruct (lookup O m registry) as [g|] eqn:Em; [|exists m; split; [now left|assumption]].
      destruct (IH _ E) as (x & A & B). exists x. split; [now right|assumption]. }
    rewrite (gather_err _ _ _ names [] X) in E. injection E as <-. apply gather_err. destruct X as (m & A & B). exists m. rewrite in_app_iff. tauto.
Qed.
Print Assumptions C133_again.

(** C133: the seeds of a plan: all None without seed, otherwise the successive draws of a generator of its own: the k-th one depends on the
    seed and on k only *)
Theorem C133_seeds G (start : Z -> G) draw seed n k :
  k < n ->
  nth_error (take_seeds G draw n (create_seed_generator G start seed)) k =
  Some (match seed with None => None | Some s => Some (nth_draw draw (start s) k) end).
Proof.
  intros H. destruct seed as [s|]; [now apply take_some|]. cbn [create_seed_generator option_map].
  revert k H. induction n as [|n IH]; intros [|k] H; try lia; [reflexivity|]. cbn [take_seeds next_seed nth_error]. apply IH. lia.
Qed.
Print Assumptions C133_seeds.

Example C133_example :
  get_optimizers nat Nat.eqb [("a", [3; 1; 3]); ("b", [2; 1])]%string (fun _ l => rev l) ["a"; "b"; "a"]%string None = Ok [3; 1; 2] /\
  get_optimizers nat Nat.eqb [("a", [3; 1; 3]); ("b", [2; 1])]%string (fun _ l => rev l) ["a"; "b"]%string (Some 1%Z) = Ok [2; 1; 3] /\
  get_optimizers nat Nat.eqb [("a", [3])]%string (fun _ l => l) ["c"]%string None = Err KeyError /\
  before (List.concat [[3; 1; 3]; [2; 1]]) 1 2.
Proof. do 3 (split; [reflexivity|]). exists [3], [3; 2; 1]. cbn. intuition congruence. Qed.
