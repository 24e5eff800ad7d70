From Coq Require Import List Arith ZArith QArith Bool Lia.
From Verif.Model Require Import Prelude MultiValue Layers Param.
From Verif.Spec Require Import Layers Param.
From Verif.Proofs Require Import Prelude MultiValue LayerValues.
Import ListNotations.
Open Scope nat_scope.

(** * Induction on trees *)
Section Ind.
  Variable P : ptree -> Prop.
  Hypothesis Pc : forall h fz v, P (PConst h fz v).
  Hypothesis Pd : forall h p d, P p -> P (PData h p d).
  Hypothesis Pn : forall h fz k s f, (forall key t, In (key, t) (fitems f) -> P t) -> P (PNode h fz k s f).
  Fixpoint ptree_ind' (t : ptree) : P t :=
    match t with
    | PConst h fz v => Pc h fz v
    | PData h p d => Pd h p d (ptree_ind' p)
    | PNode h fz k s f => Pn h fz k s f (forest_ind' f)
    end
  with forest_ind' (f : forest) : forall key t, In (key, t) (fitems f) -> P t :=
    match f return forall key t, In (key, t) (fitems f) -> P t with
    | FNil => fun _ _ H => match H with end
    | FCons k0 t0 f' => fun key t H =>
        match H with
        | or_introl E => eq_ind t0 P (ptree_ind' t0) t (f_equal snd E)
        | or_intror H' => forest_ind' f' key t H'
        end
    end.
End Ind.

(** * Forests as dicts *)
Lemma fset_at_lookup f k v : fset_at f k v = option_map (fun s => tset s v) (flookup k f).
Proof. unfold flookup. induction f as [|k' t f IH]; cbn; [easy|]. now destruct (k =? k'). Qed.
Lemma fget_std_at_lookup f k r : fget_std_at f k r = option_map (fun s => get_std s r) (flookup k f).
Proof. unfold flookup. induction f as [|k' t f IH]; cbn; [easy|]. now destruct (k =? k'). Qed.
Lemma fset_std_at_lookup f k x r : fset_std_at f k x r = option_map (fun s => set_std s x r) (flookup k f).
Proof. unfold flookup. induction f as [|k' t f IH]; cbn; [easy|]. now destruct (k =? k'). Qed.
Lemma flookup_in k f t : flookup k f = Some t -> In (k, t) (fitems f).
Proof.
  unfold flookup. induction f as [|k' t' f IH]; cbn; [discriminate|].
  destruct (Nat.eqb_spec k k') as [->|]; [|auto]. intros [= ->]. now left.
Qed.
Lemma flookup_nodup k f t : NoDup (fkeys f) -> In (k, t) (fitems f) -> flookup k f = Some t.
Proof.
  unfold flookup, fkeys. induction f as [|k' t' f IH]; cbn; [easy|]. intros Hn [H|H].
  - injection H as -> ->. now rewrite Nat.eqb_refl.
  - inversion Hn; subst. destruct (Nat.eqb_spec k k') as [->|]; [|auto]. exfalso. apply H2. now apply (in_map fst) in H.
Qed.
Lemma flookup_some k f : In k (fkeys f) -> exists t, flookup k f = Some t.
Proof.
  unfold flookup, fkeys. induction f as [|k' t' f IH]; cbn; [easy|]. intros [<-|H]; [rewrite Nat.eqb_refl; eauto|].
  destruct (k =? k'); eauto.
Qed.
Lemma flookup_fset k t f k' : flookup k' (fset k t f) =
  if (k' =? k) then match flookup k f with Some _ => Some t | None => None end else flookup k' f.
Proof.
  unfold flookup. induction f as [|k0 t0 f IH]; cbn; [now destruct (k' =? k)|].
  destruct (Nat.eqb_spec k k0) as [Ek|Ek]; cbn.
  - subst k0. now destruct (k' =? k).
  - rewrite IH. destruct (Nat.eqb_spec k' k) as [E2|E2]; [|easy].
    rewrite E2. destruct (Nat.eqb_spec k k0); [congruence|easy].
Qed.

(** relation between the sub-parameters of two forests, key by key in the same order *)
Definition FR (R : ptree -> ptree -> Prop) (f g : forest) : Prop :=
  Forall2 (fun a b => fst a = fst b /\ R (snd a) (snd b)) (fitems f) (fitems g).
Lemma FR_refl (R : ptree -> ptree -> Prop) : (forall t, R t t) -> forall f, FR R f f.
Proof. intros H f. unfold FR. induction (fitems f); constructor; auto. Qed.
Lemma FR_refl' (R : ptree -> ptree -> Prop) f : (forall k t, In (k, t) (fitems f) -> R t t) -> FR R f f.
Proof.
  intros H. unfold FR. induction (fitems f) as [|[k t] l IH]; constructor.
  - split; [easy|]. apply (H k). now left.
  - apply IH. intros k' t' Hi. apply (H k'). now right.
Qed.
Lemma FR_keys R f g : FR R f g -> fkeys g = fkeys f.
Proof. unfold FR, fkeys. induction 1 as [|a b l m [H1 _] H IH]; cbn; congruence. Qed.
Lemma FR_length R f g : FR R f g -> length (fitems g) = length (fitems f).
Proof. unfold FR. induction 1; cbn; congruence. Qed.
Lemma FR_lookup R f g k t : FR R f g -> flookup k f = Some t -> exists s, flookup k g = Some s /\ R t s.
Proof.
  unfold FR, flookup. induction 1 as [|[a t1] [b t2] l m [H1 H2] H IH]; cbn in *; [discriminate|].
  subst b. destruct (k =? a); [|easy]. intros [= <-]. eauto.
Qed.
Lemma FR_lookup' R f g k s : FR R f g -> flookup k g = Some s -> exists t, flookup k f = Some t /\ R t s.
Proof.
  unfold FR, flookup. induction 1 as [|[a t1] [b t2] l m [H1 H2] H IH]; cbn in *; [discriminate|].
  subst b. destruct (k =? a); [|easy]. intros [= <-]. eauto.
Qed.
Lemma FR_in R f g k s : FR R f g -> In (k, s) (fitems g) -> exists t, In (k, t) (fitems f) /\ R t s.
Proof.
  unfold FR. induction 1 as [|[a t1] [b t2] l m [H1 H2] H IH]; cbn in *; [easy|].
  subst b. intros [[= -> ->]|Hi]; [eauto|]. destruct (IH Hi) as (t & A & B). eauto.
Qed.
Lemma FR_fset R f g k t s : FR R f g -> flookup k f = Some t -> R t s -> FR R f (fset k s g).
Proof.
  unfold FR, flookup. revert g. induction f as [|a t1 f IH]; intros g; cbn; [easy|].
  destruct g as [|b t2 g]; cbn; intros H; inversion H as [|? ? ? ? [H1 H2] H']; subst. cbn in *. subst b.
  destruct (Nat.eqb_spec k a) as [->|Hk]; intros E HR; cbn.
  - injection E as ->. constructor; auto.
  - constructor; auto.
Qed.
Lemma FR_mono (R S : ptree -> ptree -> Prop) f g : (forall k t s, In (k, t) (fitems f) -> R t s -> S t s) -> FR R f g -> FR S f g.
Proof.
  unfold FR. intros HI H. induction H as [|[a t1] [b t2] l m [H1 H2] H IH]; constructor.
  - split; [easy|]. apply (HI a); [now left|easy].
  - apply IH. intros k t s Hi. apply (HI k). now right.
Qed.

(** * Loops over sub-parameters *)
Section Loops.
  Variable R : ptree -> ptree -> Prop.

  Lemma set_items_FR {V} (at_key : nat -> V -> option (ptree * result unit)) f : 
    (forall k v t' u, at_key k v = Some (t', u) -> exists t, flookup k f = Some t /\ R t t') ->
    forall items g f' u, FR R f g -> set_items at_key items g = (f', u) -> FR R f f'.
  Proof.
    intros HR. induction items as [|[k v] items IH]; intros g f' u Hg E; cbn in E.
    - now injection E as <- <-.
    - destruct (at_key k v) as [[t' w]|] eqn:Ea; [|now injection E as <- <-].
      destruct (HR _ _ _ _ Ea) as (t & Ht & Hr). assert (FR R f (fset k t' g)) by (now apply (FR_fset R f g k t)).
      destruct w; [eauto|]. now injection E as <- <-.
  Qed.
  Lemma collect_FR (at_key : nat -> ptree -> option (ptree * result (list Q))) f : 
    (forall k v t' u, at_key k v = Some (t', u) -> exists t, flookup k f = Some t /\ R t t') ->
    forall items g f' u, FR R f g -> collect at_key items g = (f', u) -> FR R f f'.
  Proof.
    intros HR. induction items as [|[k v] items IH]; intros g f' u Hg E; cbn in E.
    - now injection E as <- <-.
    - destruct (at_key k v) as [[t' w]|] eqn:Ea; [|now injection E as <- <-].
      destruct (HR _ _ _ _ Ea) as (t & Ht & Hr). assert (FR R f (fset k t' g)) by (now apply (FR_fset R f g k t)).
      destruct w; [|now injection E as <- <-].
      destruct (collect at_key items (fset k t' g)) as [f1 r] eqn:E1. injection E as <- <-. eauto.
  Qed.
End Loops.

(** slices as items *)
Fixpoint slices (sizes : list (nat * nat)) (data : list Q) : list (nat * list Q) :=
  match sizes with [] => [] | (k, n) :: s' => (k, firstn n data) :: slices s' (skipn n data) end.
Lemma set_slices_items at_key rf sizes : forall data f,
  set_slices at_key sizes data rf f =
  set_items (fun k x => match flookup k rf with Some r => at_key k x r | None => None end) (slices sizes data) f.
Proof.
  induction sizes as [|[k n] s IH]; intros data f; cbn; [easy|].
  destruct (flookup k rf) as [r|]; [|easy]. destruct (at_key k (firstn n data) r) as [[t' [u|e]]|]; auto.
Qed.

(** what a successful loop does *)
Lemma set_items_ok {V} (at_key : nat -> V -> option (ptree * result unit)) : forall items g f',
  NoDup (map fst items) -> set_items at_key items g = (f', Ok tt) ->
  (forall k v, dget k items = Some v -> (exists t, flookup k g = Some t) -> exists t' , at_key k v = Some (t', Ok tt) /\ flookup k f' = Some t') /\
  (forall k, dget k items = None -> flookup k f' = flookup k g).
Proof.
  induction items as [|[k0 v0] items IH]; intros g f' Hn E; cbn in E.
  - injection E as <-. split; [discriminate|easy].
  - cbn in Hn. inversion Hn as [|? ? Hn1 Hn2]; subst.
    destruct (at_key k0 v0) as [[t' [[]|e]]|] eqn:Ea; try discriminate.
    destruct (IH _ _ Hn2 E) as [I1 I2].
    assert (D : dget k0 items = None).
    { clear -Hn1. induction items as [|[a b] l IHl]; cbn in *; [easy|]. destruct (Nat.eqb_spec k0 a); [subst; exfalso; auto|]. auto. }
    split.
    + intros k v. cbn. destruct (Nat.eqb_spec k k0) as [->|Hk].
      * intros [= ->] [t Ht]. exists t'. split; [easy|]. rewrite (I2 _ D), flookup_fset, Nat.eqb_refl, Ht. reflexivity.
      * intros Hd [t Ht]. apply I1; [easy|]. rewrite flookup_fset. destruct (Nat.eqb_spec k k0); [congruence|eauto].
    + intros k. cbn. destruct (Nat.eqb_spec k k0) as [->|Hk]; [discriminate|]. intros Hd. rewrite (I2 _ Hd), flookup_fset.
      destruct (Nat.eqb_spec k k0); [congruence|easy].
Qed.
Lemma set_items_succeeds {V} (at_key : nat -> V -> option (ptree * result unit)) : forall items g,
  (forall k v, In (k, v) items -> exists t', at_key k v = Some (t', Ok tt)) ->
  exists f', set_items at_key items g = (f', Ok tt).
Proof.
  induction items as [|[k v] items IH]; intros g H; cbn; [eauto|].
  destruct (H k v) as [t' E]; [now left|]. rewrite E. apply IH. intros k' v' Hi. apply H. now right.
Qed.
Lemma set_items_all_ok {V} (at_key : nat -> V -> option (ptree * result unit)) : forall items g f',
  set_items at_key items g = (f', Ok tt) -> forall k v, In (k, v) items -> exists t', at_key k v = Some (t', Ok tt).
Proof.
  induction items as [|[k0 v0] items IH]; intros g f' E k v; cbn in *; [easy|].
  destruct (at_key k0 v0) as [[t' [[]|e]]|] eqn:Ea; try discriminate. intros [[= <- <-]|Hi]; eauto.
Qed.
(** what a successful collection gives *)
Lemma collect_ok (at_key : nat -> ptree -> option (ptree * result (list Q))) : forall items g,
  (forall k p, In (k, p) items -> exists t' x, at_key k p = Some (t', Ok x)) ->
  exists f' l, collect at_key items g = (f', Ok l) /\
    Forall2 (fun kp kx => fst kp = fst kx /\ exists t', at_key (fst kp) (snd kp) = Some (t', Ok (snd kx))) items l.
Proof.
  induction items as [|[k p] items IH]; intros g H; cbn; [eauto|].
  destruct (H k p) as (t' & x & E); [now left|]. rewrite E.
  destruct (IH (fset k t' g)) as (f' & l & E2 & H2); [intros k' p' Hi; apply H; now right|].
  rewrite E2. cbn. do 2 eexists. split; [reflexivity|]. constructor; [|easy]. cbn. eauto.
Qed.
Lemma collect_inv (at_key : nat -> ptree -> option (ptree * result (list Q))) : forall items g f' l,
  collect at_key items g = (f', Ok l) ->
  Forall2 (fun kp kx => fst kp = fst kx /\ exists t', at_key (fst kp) (snd kp) = Some (t', Ok (snd kx))) items l.
Proof.
  induction items as [|[k p] items IH]; intros g f' l E; cbn in E; [injection E as <- <-; constructor|].
  destruct (at_key k p) as [[t' [x|e]]|] eqn:Ea; try discriminate.
  destruct (collect at_key items (fset k t' g)) as [f1 [l1|e]] eqn:E1; cbn in E; [|discriminate]. injection E as <- <-.
  constructor; [cbn; eauto|eauto].
Qed.

(** ** Slices *)
Lemma gather_length s data l : gather s data = Ok l -> (forall k n x, In (k, n) s -> dget k data = Some x -> length x = n) ->
  length l = sum_sizes s.
Proof.
  revert l. induction s as [|[k n] s IH]; intros l E H; cbn in E; [now injection E as <-|].
  destruct (dget k data) as [x|] eqn:Ek; [|discriminate]. destruct (gather s data) as [l'|e]; cbn in E; [|discriminate]. injection E as <-.
  rewrite app_length. unfold sum_sizes. cbn. f_equal; [apply (H k n x); [now left|easy]|]. apply IH; [easy|]. intros k' n' x' Hi. apply H. now right.
Qed.
Lemma gather_ok s data : (forall k n, In (k, n) s -> exists x, dget k data = Some x) -> exists l, gather s data = Ok l.
Proof.
  induction s as [|[k n] s IH]; intros H; cbn; [eauto|]. destruct (H k n (or_introl eq_refl)) as [x ->].
  destruct IH as [l ->]; [intros k' n' Hi; apply (H k' n'); now right|]. cbn. eauto.
Qed.
Lemma firstn_app_exact {A} (x l : list A) : firstn (length x) (x ++ l) = x.
Proof. induction x; cbn; congruence. Qed.
Lemma skipn_app_exact {A} (x l : list A) : skipn (length x) (x ++ l) = l.
Proof. induction x; cbn; congruence. Qed.
Lemma slices_gather s data l : gather s data = Ok l -> (forall k n x, In (k, n) s -> dget k data = Some x -> length x = n) ->
  forall k x, In (k, x) (slices s l) -> dget k data = Some x.
Proof.
  revert l. induction s as [|[k n] s IH]; intros l E H k' x' Hi; cbn in *; [easy|].
  destruct (dget k data) as [x|] eqn:Ek; [|discriminate]. destruct (gather s data) as [l'|e]; cbn in E; [|discriminate]. injection E as <-.
  assert (Hn : length x = n) by (apply (H k n x); [now left|easy]). subst n. rewrite firstn_app_exact, skipn_app_exact in Hi.
  destruct Hi as [[= <- <-]|Hi]; [easy|]. apply (IH l' eq_refl); [|easy]. intros k2 n2 x2 Hi2. apply H. now right.
Qed.
Lemma slices_keys s data : map fst (slices s data) = map fst s.
Proof. revert data. induction s as [|[k n] s IH]; intros data; cbn; [easy|]. now rewrite IH. Qed.
Lemma slices_in s data k x : In (k, x) (slices s data) -> length data = sum_sizes s -> exists n, In (k, n) s /\ length x = n.
Proof.
  revert data. induction s as [|[k0 n0] s IH]; intros data Hi Hl; cbn in *; [easy|]. unfold sum_sizes in Hl. cbn in Hl.
  destruct Hi as [[= <- <-]|Hi].
  - exists n0. split; [now left|]. rewrite firstn_length. unfold list_sum in Hl. lia.
  - destruct (IH _ Hi) as (n & H1 & H2); [rewrite skipn_length; unfold sum_sizes, list_sum in *; lia|]. eauto.
Qed.
Lemma gather_slices s : forall x data, length x = sum_sizes s -> NoDup (map fst s) ->
  (forall k y, In (k, y) (slices s x) -> exists z, dget k data = Some z /\ veq z y) ->
  exists l, gather s data = Ok l /\ veq l x.
Proof.
  induction s as [|[k n] s IH]; intros x data Hl Hn H; cbn in *.
  - destruct x; [|discriminate]. exists []. split; [easy|constructor].
  - unfold sum_sizes in Hl. cbn in Hl. inversion Hn as [|? ? N1 N2]; subst.
    destruct (H k (firstn n x) (or_introl eq_refl)) as (z & -> & Hz).
    destruct (IH (skipn n x) data) as (l & -> & Hl2).
    { rewrite skipn_length. unfold sum_sizes, list_sum in *. lia. } { easy. } { intros k' y' Hi. apply H. now right. }
    cbn. exists (z ++ l). split; [easy|]. rewrite <- (firstn_skipn n x). now apply Forall2_app.
Qed.
