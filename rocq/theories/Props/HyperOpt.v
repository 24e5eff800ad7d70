(** C92: HyperOpt hands out the configurations drawn by the package and records the candidates it is told. *)
From Coq Require Import Arith ZArith QArith Bool Lia String List.
From Verif.Model Require Import Prelude MultiValue Layers HyperOpt.
From Verif.Spec Require Import HyperOpt.
From Verif.Proofs Require Import HyperOpt.
Import ListNotations.
Open Scope nat_scope.

(** For every instrumentation without integers inside choices, and whatever the package draws from the space made for
    it, the candidate is found and its value is the drawn configuration. *)
Theorem C92_asked root p s vs : create root p = Ok (Some s) -> well_formed p -> integers_apart p -> legal s vs ->
  exists c v p' w, space_eval s vs = Ok c /\ from_config c = Ok v /\ candidate s p vs = Ok p' /\ value p' = Ok w /\ eqv v w = true.
Proof.
  intros E Hw Hi Hl. assert (Es : search_space root p = Ok s).
  { unfold create in E. destruct p; try discriminate. destruct (search_space root _) as [s'|err]; [|destruct err; discriminate]. destruct (distinct (labels s')); [|discriminate]. now injection E as ->. }
  destruct (asked p root s vs Es Hi Hw Hl) as (c & v & p' & w & E1 & E2 & _ & E3 & E4 & E5). exists c, v, p', w. unfold candidate. rewrite E1. cbn [bind]. rewrite E2. cbn [bind]. auto.
Qed.
Print Assumptions C92_asked.

(** A candidate told without having been asked is recorded as draws of the space, whose configuration is its value. *)
Theorem C92_recorded root p s : create root p = Ok (Some s) -> well_formed p -> recordable p ->
  exists vs v c, record s p = Ok vs /\ legal s vs /\ value p = Ok v /\ space_eval s vs = Ok c /\ from_config c = Ok v.
Proof. intros E Hw Hr. destruct (recorded p root s Hr Hw E) as (vs & v & E1 & E2 & E3 & c & E4 & E5). exists vs, v, c. auto. Qed.
Print Assumptions C92_recorded.

(** Recording a candidate and drawing the same again gives a candidate with the same value. *)
Theorem C92_round_trip root p s : create root p = Ok (Some s) -> well_formed p -> recordable p -> integers_apart p ->
  exists vs v p' w, record s p = Ok vs /\ candidate s p vs = Ok p' /\ value p = Ok v /\ value p' = Ok w /\ eqv v w = true.
Proof.
  intros E Hw Hr Hi. destruct (C92_recorded root p s E Hw Hr) as (vs & v & c & E1 & E2 & E3 & E4 & E5). destruct (C92_asked root p s vs E Hw Hi E2) as (c' & v' & p' & w & F1 & F2 & F3 & F4 & F5).
  exists vs, v, p', w. repeat split; auto. congruence.
Qed.
Print Assumptions C92_round_trip.

(** What is drawn for each argument: uniform numbers for scalars, log-uniform ones for log-scalars, integers for integer
    scalars, one of the options for choices. *)
Lemma each_pos_length {A B} (f : nat -> A -> result B) : forall l i r, each_pos f i l = Ok r -> length r = length l.
Proof.
  induction l as [|x l IH]; intros i r; cbn [each_pos].
  - intros [= <-]. reflexivity.
  - destruct (f i x) as [y|e]; [|discriminate]. cbn [bind]. fold (@each_pos A B f). destruct (each_pos f (S i) l) as [ys|e] eqn:E; [|discriminate].
    cbn [bind]. intros [= <-]. cbn. f_equal. eapply IH. exact E.
Qed.
Lemma search_drawn name p s : search_space name p = Ok s -> drawn_for p s.
Proof.
  destruct p as [lo hi q|lo hi q|lo hi q|i options|v|args kwargs|n]; cbn [search_space drawn_for].
  1-3: destruct lo, hi; intros [= <-]; eauto.
  - destruct (negb _); [discriminate|]. destruct (each_pos _ 0 options) as [r|e] eqn:E; [|discriminate]. cbn [bind]. intros [= <-].
    eexists; eexists; split; [reflexivity|]. eapply each_pos_length. exact E.
  - now intros [= <-].
  - destruct (each_pos _ 0 args) as [a|e]; [|discriminate]. cbn [bind]. destruct (each_key _ kwargs) as [k|e]; [|discriminate].
    cbn [bind]. intros [= <-]. eauto.
  - discriminate.
Qed.
Lemma args_drawn : forall args i r, each_pos (fun i p => bind (search_space (str i) p) (fun s => Ok (str i, s))) i args = Ok r ->
  Forall2 (fun p e => drawn_for p (snd e)) args r.
Proof.
  induction args as [|p args IH]; intros i r; cbn [each_pos].
  - intros [= <-]. constructor.
  - destruct (search_space (str i) p) as [s|e] eqn:E1; [|discriminate]. cbn [bind]. fold (@each_pos par (string * space)).
    destruct (each_pos _ (S i) args) as [ys|e] eqn:E; [|discriminate]. cbn [bind]. intros [= <-].
    constructor; [eapply search_drawn; exact E1|eapply IH; exact E].
Qed.
Theorem C92_scales root args kwargs s : create root (PInstr args kwargs) = Ok (Some s) ->
  exists spaces others, s = SDict spaces others /\ Forall2 (fun p e => drawn_for p (snd e)) args spaces.
Proof.
  unfold create. cbn [search_space].
  destruct (each_pos _ 0 args) as [a|e] eqn:E; [|destruct e; discriminate]. cbn [bind].
  destruct (each_key _ kwargs) as [k|e]; [|destruct e; discriminate]. cbn [bind].
  destruct (distinct _); [|discriminate]. intros [= <-]. eexists; eexists; split; [reflexivity|]. eapply args_drawn. exact E.
Qed.
Print Assumptions C92_scales.

(** Scalars without both bounds: the optimizer cannot be created, though the code has a distribution for them. *)
Theorem C92_unbounded_refuted root lo hi q args kwargs : lo = None \/ hi = None -> create root (PInstr (PScalar lo hi q :: args) kwargs) = Err TypeError.
Proof. intros [-> | ->]; [reflexivity|]. destruct lo; reflexivity. Qed.
Print Assumptions C92_unbounded_refuted.

(** The upper bound of an integer scalar is never handed out, though its value is allowed. *)
Theorem C92_upper_bound_refuted root lo hi raw s vs p' : create root (PInstr [PInt (Some lo) (Some hi) raw] []) = Ok (Some s) -> legal s vs ->
  candidate s (PInstr [PInt (Some lo) (Some hi) raw] []) vs = Ok p' -> exists z, value p' = Ok (VCall [VNum (inject_Z z)] []) /\ (lo <= z < hi)%Z.
Proof.
  cbn. intros [= <-]. cbn. intros (((z & Ez & B) & _) & _). unfold candidate. cbn. unfold drawn. rewrite Ez. cbn.
  destruct (within qle _ _ _); [|discriminate]. cbn. intros [= <-]. exists z. cbn. now rewrite round_integer.
Qed.
Print Assumptions C92_upper_bound_refuted.

(** A constant argument: candidates are handed out, none can be recorded. *)
Theorem C92_constant_refuted root v q : (exists s, create root (PInstr [PConst v; PScalar (Some 0%Q) (Some 1%Q) q] []) = Ok (Some s)) /\
  forall s args kwargs, record s (PInstr (PConst v :: args) kwargs) = Err TypeError.
Proof. split; [eexists|intros s args kwargs]; reflexivity. Qed.
Print Assumptions C92_constant_refuted.

(** A choice inside a choice: the value of the inner one is recorded as if it were an index. *)
Definition nested : par := PInstr [PChoice 0 [PChoice 1 [PConst (VNum 5); PConst (VNum 0)]; PConst (VNum 7)]] [].
Theorem C92_nested_choice_refuted : exists s vs c, create "" nested = Ok (Some s) /\ value nested = Ok (VCall [VNum 0] []) /\ record s nested = Ok vs /\
  space_eval s vs = Ok c /\ from_config c = Ok (VCall [VNum 5] []).
Proof. eexists. eexists. eexists. repeat split; vm_compute; reflexivity. Qed.
Print Assumptions C92_nested_choice_refuted.

(** An instrumentation inside a choice uses the labels of the outer one: the optimizer cannot be created. *)
Theorem C92_labels_refuted root lo hi q lo' hi' q' i : create root (PInstr [PScalar (Some lo) (Some hi) q; PChoice i [PInstr [PScalar (Some lo') (Some hi') q'] []]] []) = Err DuplicateLabel.
Proof. reflexivity. Qed.
Print Assumptions C92_labels_refuted.

(** A choice between an integer and a log-scalar: the draw of the log-scalar is given to the integer, which rounds it. *)
Definition mixed : par := PInstr [PChoice 0 [PInt (Some 0%Z) (Some 10%Z) 0; PLog (Some (1 # 2)%Q) (Some 5%Q) 1]] [].
Definition mixed_draw : vals := [("0"%string, [VNum 1]); ("0__0"%string, []); ("0__1"%string, [VNum (7 # 10)])].
Theorem C92_rounded_refuted : exists s c p', create "" mixed = Ok (Some s) /\ legal s mixed_draw /\ space_eval s mixed_draw = Ok c /\ from_config c = Ok (VCall [VNum (7 # 10)] []) /\
  candidate s mixed mixed_draw = Ok p' /\ value p' = Ok (VCall [VNum 1] []).
Proof.
  eexists. eexists. eexists. split; [vm_compute; reflexivity|]. split.
  - cbn. split; [|exact I]. split; [|exact I]. exists 1. split; [reflexivity|]. split; [lia|]. split; [constructor; [reflexivity|constructor]|]. split; [|exact I]. exists (7 # 10)%Q. split; [reflexivity|]. split; discriminate.
  - repeat split; vm_compute; reflexivity.
Qed.
Print Assumptions C92_rounded_refuted.

(** * A case: a scalar, an integer, and a choice between a constant, a log-scalar and an instrumentation *)
Definition sample : par :=
  PInstr [PScalar (Some (-1)%Q) (Some 1%Q) (1 # 3); PInt (Some 2%Z) (Some 8%Z) 5]
    [("lr"%string, PChoice 1 [PConst (VObj 4); PLog (Some (1 # 100)) (Some 1%Q) (1 # 10); PInstr [] [("deep"%string, PScalar (Some 0%Q) (Some 2%Q) 1)]])].
Example sample_created : exists s, create "" sample = Ok (Some s) /\ labels s = ["0"; "1"; "lr"; "lr__1"; "deep"]%string.
Proof. eexists. split; vm_compute; reflexivity. Qed.
Example sample_well_formed : well_formed sample /\ integers_apart sample.
Proof.
  split; unfold sample; repeat (cbn [snd map fst]; match goal with |- ~ _ => intros [] | |- _ => constructor end).
Qed.
Example sample_recordable : recordable sample.
Proof.
  unfold sample. constructor.
  - constructor; [|constructor; [|constructor]]; constructor; [split; discriminate|]. vm_compute. split; [discriminate|reflexivity].
  - constructor; [|constructor]. cbn [snd]. apply rc_choice with (o := PLog (Some (1 # 100)) (Some 1%Q) (1 # 10)) (v := VNum (1 # 10)); [reflexivity..| | |discriminate].
    + intros [|[|[|j]]] o' E Hj; try (now elim Hj); cbn in E; [injection E as <-..|destruct j; discriminate]; eexists; split; reflexivity.
    + left. constructor. split; discriminate.
Qed.
Definition sample_draws : vals :=
  [("0"%string, [VNum (1 # 2)]); ("1"%string, [VNum 7]); ("lr"%string, [VNum 2]); ("lr__1"%string, []); ("deep"%string, [VNum (3 # 2)])].
Example sample_asked : exists s p', create "" sample = Ok (Some s) /\ legal s sample_draws /\ candidate s sample sample_draws = Ok p' /\
  value p' = Ok (VCall [VNum (1 # 2); VNum 7] [("lr"%string, VCall [] [("deep"%string, VNum (3 # 2))])]).
Proof.
  eexists. eexists. split; [vm_compute; reflexivity|]. split; [|split; vm_compute; reflexivity]. cbn. split.
  - split; [exists (1 # 2)%Q; split; [reflexivity|split; discriminate]|]. split; [exists 7%Z; split; [reflexivity|lia]|exact I].
  - split; [|exact I]. exists 2. split; [reflexivity|]. split; [lia|]. split; [constructor|]. split; [constructor; [reflexivity|constructor]|]. split; [|exact I]. split; [exact I|]. split; [|exact I].
    exists (3 # 2)%Q. split; [reflexivity|split; discriminate].
Qed.
Example sample_recorded : exists s, create "" sample = Ok (Some s) /\
  record s sample = Ok [("0"%string, [VNum (1 # 3)]); ("1"%string, [VNum 5]); ("lr"%string, [VNum 1]); ("lr__1"%string, [VNum (1 # 10)]); ("deep"%string, [])].
Proof. eexists. split; vm_compute; reflexivity. Qed.
