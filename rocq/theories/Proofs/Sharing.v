(** Lemmas on sharing. *)
From Coq Require Import List Arith ZArith QArith Bool Lia.
From Verif.Model Require Import Prelude Sharing.
From Verif.Spec Require Import Sharing.
From Verif.Proofs Require Import Prelude.
Import ListNotations.
Open Scope nat_scope.

Lemma write_length a c h : length (write a c h) = length h.
Proof. revert h. induction a; intros [|d h]; cbn; auto. Qed.
Lemma write_same a c h : a < length h -> nth_error (write a c h) a = Some c.
Proof. revert h. induction a; intros [|d h] H; cbn in *; try lia; auto. apply IHa. lia. Qed.
Lemma write_other a b c h : b <> a -> nth_error (write a c h) b = nth_error h b.
Proof. revert b h. induction a; intros [|b] [|d h] H; cbn; auto; try lia. Qed.
Lemma write_get a b c h x : nth_error (write a c h) b = Some x -> (b = a /\ x = c) \/ nth_error h b = Some x.
Proof.
  intros H. destruct (Nat.eq_dec b a) as [E|E]; [|right; now rewrite write_other in H].
  subst b. left. assert (L : a < length h). { rewrite <- (write_length a c h). apply nth_error_Some. congruence. }
  rewrite write_same in H by easy. split; congruence.
Qed.
Lemma get_lt {A} (h : list A) a x : nth_error h a = Some x -> a < length h.
Proof. intros H. apply nth_error_Some. congruence. Qed.
Lemma app_old {A} (h l : list A) a : a < length h -> nth_error (h ++ l) a = nth_error h a.
Proof. intros H. now apply nth_error_app1. Qed.

(** * Frames *)
Lemma seen_frame h h' p : (forall x, seen h p x -> nth_error h' x = nth_error h x) -> forall x, seen h' p x <-> seen h p x.
Proof.
  intros H x. split; intros S; induction S as [|b c d S IH E R]; try constructor.
  - apply (seen_step h p b c d IH); [rewrite <- H|]; easy.
  - apply (seen_step h' p b c d IH); [rewrite H|]; easy.
Qed.
Lemma views_ext f g l : (forall k a, In (k, a) l -> f a = g a) -> views f l = views g l.
Proof. induction l as [|[k a] l IH]; intros H; cbn; [easy|]. rewrite (H k a (or_introl eq_refl)), IH; [easy|]. intros k' a' Hi. apply (H k'). now right. Qed.
Lemma seen_trans h a b c : seen h a b -> seen h b c -> seen h a c.
Proof. intros H1 H2. induction H2 as [|x d y S IH E R]; [easy|]. exact (seen_step h a x d y IH E R). Qed.
Lemma owned_trans h a b c : owned h a b -> owned h b c -> owned h a c.
Proof. intros H1 H2. induction H2 as [|x d y S IH E R]; [easy|]. exact (owned_step h a x d y IH E R). Qed.
Lemma owned_seen h a x : owned h a x -> seen h a x.
Proof. induction 1 as [|b c d S IH E R]; [constructor|]. apply (seen_step h a b c d IH E). now left. Qed.
Lemma view_frame n : forall h h' p, (forall x, seen h p x -> nth_error h' x = nth_error h x) -> view n h' p = view n h p.
Proof.
  induction n as [|n IH]; intros h h' p H; cbn; [easy|]. rewrite (H p (seen_self h p)). destruct (nth_error h p) as [[x|f q|f v q|f l]|] eqn:E; try easy.
  - rewrite H; [easy|]. apply (seen_step h p p _ q (seen_self h p) E). now right.
  - rewrite (H v); [|apply (seen_step h p p _ v (seen_self h p) E); left; cbn; auto].
    rewrite (IH h h' q); [easy|]. intros x Hx. apply H. apply (seen_trans h p q x); [|easy].
    apply (seen_step h p p _ q (seen_self h p) E). left. cbn. auto.
  - f_equal. apply views_ext. intros k a Hi. apply IH. intros x Hx. apply H. apply (seen_trans h p a x); [|easy].
    apply (seen_step h p p _ a (seen_self h p) E). left. cbn. eauto.
Qed.

(** * Operations *)
Lemma seen_lt h p x : closed h -> p < length h -> seen h p x -> x < length h.
Proof. intros Hc Hp H. induction H as [|b c d S IH E R]; [easy|]. exact (Hc b c d E R). Qed.
Lemma owned_lt h p x : closed h -> p < length h -> owned h p x -> x < length h.
Proof. intros Hc Hp H. apply (seen_lt h p); auto. now apply owned_seen. Qed.

(** a heap obtained by writing only in one cell owned by [c] and in new ones *)
Lemma closed_write h a c : closed h -> (forall b, refers c b -> b < length h) -> closed (write a c h).
Proof.
  intros Hc H x d b E R. rewrite write_length. destruct (write_get a x c h d E) as [[_ ->]|E']; [auto|]. exact (Hc x d b E' R).
Qed.
Lemma closed_alloc h c : closed h -> (forall b, refers c b -> b < length h) -> closed (h ++ [c]).
Proof.
  intros Hc H x d b E R. rewrite app_length. cbn. destruct (Nat.lt_ge_cases x (length h)) as [L|L].
  - rewrite app_old in E by easy. specialize (Hc x d b E R). lia.
  - rewrite nth_error_app2 in E by easy. destruct (x - length h) as [|[|]]; try discriminate. cbn in E. injection E as <-. specialize (H b R). lia.
Qed.

Definition sep (h : heap) (c p : nat) : Prop := forall x, owned h c x -> ~ seen h p x.

(** writing at [a] a cell which owns what the old one did, new cells or things which [p] does not see *)
Lemma sep_write h c p a d : sep h c p -> owned h c a -> a < length h ->
  (forall x, owns d x -> (exists e, nth_error h a = Some e /\ owns e x) \/ forall y, owned h x y -> ~ seen h p y) ->
  sep (write a d h) c p /\ forall x, seen h p x -> nth_error (write a d h) x = nth_error h x.
Proof.
  intros Hs Ha La Hd.
  assert (F : forall x, seen h p x -> nth_error (write a d h) x = nth_error h x).
  { intros x Hx. apply write_other. intros ->. exact (Hs a Ha Hx). }
  split; [|exact F]. intros x Hx Sx. rewrite (seen_frame h (write a d h) p F) in Sx.
  assert (K : owned h c x \/ exists b, (forall y, owned h b y -> ~ seen h p y) /\ owned h b x).
  { clear Sx. induction Hx as [|b e y Hb IH E R]; [left; constructor|].
    destruct (write_get a b d h e E) as [[-> ->]|E'].
    - destruct (Hd y R) as [(e & Ee & Re)|Hy]; [left; exact (owned_step h c a e y Ha Ee Re)|]. right. exists y. split; [easy|constructor].
    - destruct IH as [IH|(b' & Hb1 & Hb2)]; [left; exact (owned_step h c b e y IH E' R)|]. right. exists b'. split; [easy|]. exact (owned_step h b' b e y Hb2 E' R). }
  destruct K as [K|(b & K1 & K2)]; [exact (Hs x K Sx)|exact (K1 x K2 Sx)].
Qed.
Lemma owned_alloc h d a x : closed h -> a < length h -> owned (h ++ [d]) a x <-> owned h a x.
Proof.
  intros Hc La. split; intros H.
  - induction H as [|b e y Hb IH E R]; [constructor|]. pose proof (owned_lt h a b Hc La IH) as L. rewrite app_old in E by easy. exact (owned_step h a b e y IH E R).
  - induction H as [|b e y Hb IH E R]; [constructor|]. apply (owned_step (h ++ [d]) a b e y IH); [|easy]. rewrite app_old; [easy|]. now apply get_lt in E.
Qed.
Lemma seen_alloc h d a x : closed h -> a < length h -> seen (h ++ [d]) a x <-> seen h a x.
Proof. intros Hc La. apply seen_frame. intros y Hy. apply app_old. exact (seen_lt h a y Hc La Hy). Qed.
Lemma sep_alloc h c p d : closed h -> c < length h -> p < length h -> sep h c p -> sep (h ++ [d]) c p.
Proof. intros Hc Lc Lp H x Hx. rewrite seen_alloc by easy. apply H. now rewrite owned_alloc in Hx. Qed.

Lemma step_sep h c p o : closed h -> c < length h -> p < length h -> sep h c p -> op_on h c p o ->
  closed (hstep h o) /\ length h <= length (hstep h o) /\ sep (hstep h o) c p /\ forall x, seen h p x -> nth_error (hstep h o) x = nth_error h x.
Proof.
  intros Hc Lc Lp Hs Ho.
  assert (N : closed h /\ length h <= length h /\ sep h c p /\ forall x, seen h p x -> nth_error h x = nth_error h x) by auto.
  destruct o as [a x|a b|b x|a up|a k b]; cbn [hstep op_on] in *.
  - destruct (nth_error h a) as [[y|f q|f v q|f l]|] eqn:E; try exact N. destruct (f_frozen f); [exact N|]. cbn [alloc].
    pose proof (get_lt h a _ E) as La. set (h1 := h ++ [CArr x]).
    assert (C1 : closed h1) by (apply closed_alloc; [easy|]; intros z [Hz|Hz]; cbn in Hz; tauto).
    assert (L1 : length h1 = S (length h)) by (unfold h1; rewrite app_length; cbn; lia).
    assert (E1 : nth_error h1 a = Some (OData f v q)) by (unfold h1; now rewrite app_old).
    assert (S1 : sep h1 c p) by now apply sep_alloc.
    assert (D : forall z, owned h1 (length h) z -> z = length h).
    { intros z Hz. remember (length h) as n eqn:En. induction Hz as [|b e y Hb IH Eb R]; [easy|]. rewrite IH, En in Eb. unfold h1 in Eb.
      rewrite nth_error_app2, Nat.sub_diag in Eb by lia. cbn in Eb. injection Eb as <-. destruct R. }
    destruct (sep_write h1 c p a (OData f (length h) q) S1) as [W1 W2].
    + unfold h1. now rewrite owned_alloc.
    + lia.
    + cbn. intros z [->| ->].
      * right. intros y Hy Sy. rewrite (D y Hy) in Sy. unfold h1 in Sy. rewrite seen_alloc in Sy by easy. apply (seen_lt h p _ Hc Lp) in Sy. lia.
      * left. exists (OData f v q). split; [easy|]. cbn. auto.
    + split; [|split; [|split; [easy|]]].
      * apply closed_write; [easy|]. intros z [[->| ->]|Hz]; [lia| |easy]. apply (C1 a _ q E1). left. cbn. auto.
      * rewrite write_length. lia.
      * intros z Hz. rewrite W2; [unfold h1; apply app_old; exact (seen_lt h p z Hc Lp Hz)|]. unfold h1. now rewrite seen_alloc.
  - destruct Ho as (Ha & Lb & Hb). destruct (nth_error h a) as [[y|f q|f v q|f l]|] eqn:E; try exact N. destruct (nth_error h b) as [[y|f' q'|f' v' q'|f' l']|] eqn:Eb; try exact N. destruct (f_frozen f); [exact N|].
    pose proof (get_lt h a _ E) as La. destruct (sep_write h c p a (OData f b q) Hs Ha La) as [W1 W2].
    + cbn. intros z [->| ->]; [right; exact Hb|]. left. exists (OData f v q). split; [easy|cbn; auto].
    + split; [|split; [|split; [easy|exact W2]]].
      * apply closed_write; [easy|]. intros z [[->| ->]|Hz]; [easy| |easy]. apply (Hc a _ q E). left. cbn. auto.
      * now rewrite write_length.
  - destruct (nth_error h b) as [[y|f' q'|f' v' q'|f' l']|] eqn:Eb; try exact N. pose proof (get_lt h b _ Eb) as Lb.
    destruct (sep_write h c p b (CArr x) Hs Ho Lb) as [W1 W2]; [cbn; tauto|]. split; [|split; [|split; [easy|exact W2]]].
    + apply closed_write; [easy|]. intros z [Hz|Hz]; easy.
    + now rewrite write_length.
  - unfold set_fields. destruct (nth_error h a) as [e|] eqn:E; [|exact N]. destruct (fields_of e) as [f|] eqn:Ef; [|exact N]. pose proof (get_lt h a _ E) as La.
    assert (O : forall z, owns (with_fields (up f) e) z <-> owns e z) by (intros z; destruct e; cbn; tauto).
    assert (R : forall z, refers (with_fields (up f) e) z <-> refers e z) by (intros z; destruct e; unfold refers; cbn; tauto).
    destruct (sep_write h c p a (with_fields (up f) e) Hs Ho La) as [W1 W2].
    + intros z Hz. left. exists e. split; [easy|]. now apply O.
    + split; [|split; [|split; [easy|exact W2]]].
      * apply closed_write; [easy|]. intros z Hz. apply R in Hz. exact (Hc a e z E Hz).
      * now rewrite write_length.
  - destruct Ho as (Ha & Lb & Hb). destruct (nth_error h a) as [[y|f q|f v q|f l]|] eqn:E; try exact N. pose proof (get_lt h a _ E) as La.
    assert (P : forall k' z, In (k', z) (put_item k b l) -> z = b \/ In (k', z) l).
    { unfold put_item. clear. induction l as [|[k2 z2] l IH]; cbn; intros k' z Hz; [destruct Hz as [[= <- <-]|[]]; auto|].
      destruct (k =? k2); cbn in Hz; destruct Hz as [[= <- <-]|Hz]; auto. destruct (IH _ _ Hz); auto. }
    destruct (sep_write h c p a (OCont f (put_item k b l)) Hs Ha La) as [W1 W2].
    + cbn. intros z (k' & Hz). destruct (P k' z Hz) as [->|Hi]; [right; exact Hb|]. left. exists (OCont f l). split; [easy|]. cbn. eauto.
    + split; [|split; [|split; [easy|exact W2]]].
      * apply closed_write; [easy|]. intros z [(k' & Hz)|Hz]; [|easy]. destruct (P k' z Hz) as [->|Hi]; [easy|]. apply (Hc a _ z E). left. cbn. eauto.
      * now rewrite write_length.
Qed.
Lemma run_sep ops : forall h c p, closed h -> c < length h -> p < length h -> sep h c p -> ops_on h c p ops ->
  forall x, seen h p x -> nth_error (hrun ops h) x = nth_error h x.
Proof.
  induction ops as [|o ops IH]; intros h c p Hc Lc Lp Hs Ho x Hx; cbn; [easy|]. destruct Ho as [Ho1 Ho2].
  destruct (step_sep h c p o Hc Lc Lp Hs Ho1) as (H1 & H2 & H3 & H4). change (fold_left hstep ops (hstep h o)) with (hrun ops (hstep h o)).
  rewrite (IH (hstep h o) c p); auto; try lia. apply (seen_frame h); auto.
Qed.

(** * Copies *)
(** a heap which extends another one, with an object whose owned cells are all new *)
Definition wrapped (h : heap) (a p : nat) : Prop := exists y f, owned h a y /\ nth_error h y = Some (OConst f p).
Record fresh (h h' : heap) (a b : nat) : Prop := {
  fr_ext : exists l, h' = h ++ l;
  fr_closed : closed h';
  fr_lt : b < length h';
  fr_owned : forall x, owned h' b x -> length h <= x;
  fr_wrapped : forall p, wrapped h' b p -> wrapped h a p }.

Lemma ext_get (h l : heap) a x : nth_error h a = Some x -> nth_error (h ++ l) a = Some x.
Proof. intros H. rewrite app_old; [easy|]. now apply get_lt in H. Qed.
Lemma owned_ext h l b x : closed h -> b < length h -> owned (h ++ l) b x <-> owned h b x.
Proof.
  intros Hc Lb. split; intros H.
  - induction H as [|a e y Ha IH E R]; [constructor|]. pose proof (owned_lt h b a Hc Lb IH) as L. rewrite app_old in E by easy. exact (owned_step h b a e y IH E R).
  - induction H as [|a e y Ha IH E R]; [constructor|]. apply (owned_step (h ++ l) b a e y IH); [|easy]. now apply ext_get.
Qed.
Lemma seen_ext h l b x : closed h -> b < length h -> seen (h ++ l) b x <-> seen h b x.
Proof. intros Hc La. apply seen_frame. intros y Hy. apply app_old. exact (seen_lt h b y Hc La Hy). Qed.
Lemma view_ext n h l b : closed h -> b < length h -> view n (h ++ l) b = view n h b.
Proof. intros Hc Lb. apply view_frame. intros x Hx. apply app_old. exact (seen_lt h b x Hc Lb Hx). Qed.

(** the new object: last allocated, owning fresh things *)
Lemma fresh_alloc h l a c : closed (h ++ l) -> (forall b, refers c b -> b < length (h ++ l)) ->
  (forall b x, owns c b -> owned (h ++ l) b x -> length h <= x) ->
  (forall b p, owns c b -> wrapped (h ++ l) b p -> wrapped h a p) -> (forall f p, c = OConst f p -> wrapped h a p) ->
  fresh h ((h ++ l) ++ [c]) a (length (h ++ l)).
Proof.
  intros Hc Hr Ho Hw Hk. set (h2 := h ++ l) in *. assert (C : closed (h2 ++ [c])) by now apply closed_alloc.
  assert (G : forall x, owned (h2 ++ [c]) (length h2) x -> x = length h2 \/ exists b, owns c b /\ owned h2 b x).
  { intros x Hx. induction Hx as [|q e y Ha IH E R]; [auto|]. right. destruct IH as [->|(b & Hb1 & Hb2)].
    - rewrite nth_error_app2, Nat.sub_diag in E by lia. cbn in E. injection E as <-. exists y. split; [easy|constructor].
    - exists b. split; [easy|]. assert (Lb : b < length h2) by (apply Hr; now left). pose proof (owned_lt h2 b q Hc Lb Hb2) as L. rewrite app_old in E by easy.
      exact (owned_step h2 b q e y Hb2 E R). }
  constructor; [exists (l ++ [c]); unfold h2; now rewrite app_assoc|easy|rewrite app_length; cbn; lia| |].
  - intros x Hx. destruct (G x Hx) as [->|(b & Hb1 & Hb2)]; [unfold h2; rewrite app_length; lia|]. exact (Ho b x Hb1 Hb2).
  - intros p (y & f & Hy & Ey). destruct (G y Hy) as [->|(b & Hb1 & Hb2)].
    + rewrite nth_error_app2, Nat.sub_diag in Ey by lia. cbn in Ey. injection Ey as Ey. exact (Hk f p Ey).
    + apply (Hw b p Hb1). exists y, f. split; [easy|]. assert (Lb : b < length h2) by (apply Hr; now left).
      rewrite app_old in Ey; [easy|]. exact (owned_lt h2 b y Hc Lb Hb2).
Qed.
Lemma wrapped_ext h l b p : closed h -> b < length h -> wrapped (h ++ l) b p <-> wrapped h b p.
Proof.
  intros Hc Lb. split; intros (y & f & Hy & Ey); exists y, f.
  - rewrite owned_ext in Hy by easy. split; [easy|]. rewrite app_old in Ey; [easy|]. exact (owned_lt h b y Hc Lb Hy).
  - rewrite owned_ext by easy. split; [easy|]. now apply ext_get.
Qed.
Lemma wrapped_sub h a c b p : nth_error h a = Some c -> owns c b -> wrapped h b p -> wrapped h a p.
Proof.
  intros Ea Ho (y & f & Hy & Ey). exists y, f. split; [|easy]. apply (owned_trans h a b y); [|easy]. exact (owned_step h a a c b (owned_self h a) Ea Ho).
Qed.

Lemma Forall2_imp {A B} (P Q : A -> B -> Prop) l m : (forall a b, In a l -> In b m -> P a b -> Q a b) -> Forall2 P l m -> Forall2 Q l m.
Proof. intros H F. induction F as [|a b l m HP F IH]; constructor; [apply H; cbn; auto|]. apply IH. intros x y Hx Hy. apply H; cbn; auto. Qed.

Definition same_values (h h' : heap) (a b : nat) : Prop := forall n, option_map values_of (view n h' b) = option_map values_of (view n h a).

Lemma each_spec make : (forall a uid h h' b uid', closed h -> a < length h -> make a uid h = Ok (h', b, uid') -> fresh h h' a b /\ same_values h h' a b) ->
  forall l uid h h' l' uid', closed h -> (forall k a, In (k, a) l -> a < length h) -> each make l uid h = Ok (h', l', uid') ->
  (exists e, h' = h ++ e) /\ closed h' /\ Forall2 (fun x y => fst x = fst y /\ snd y < length h' /\ (forall z, owned h' (snd y) z -> length h <= z) /\ (forall p, wrapped h' (snd y) p -> wrapped h (snd x) p) /\ same_values h h' (snd x) (snd y)) l l'.
Proof.
  intros Hm. induction l as [|[k a] l IH]; intros uid h h' l' uid' Hc Hl E; cbn in E.
  - injection E as <- <- <-. split; [exists []; now rewrite app_nil_r|]. split; [easy|constructor].
  - destruct (make a uid h) as [[[h1 b] u1]|e] eqn:Em; cbn in E; [|discriminate].
    destruct (Hm a uid h h1 b u1 Hc (Hl k a (or_introl eq_refl)) Em) as [[F1 F2 F3 F4 F5] Fv]. destruct F1 as [e1 ->].
    destruct (each make l u1 (h ++ e1)) as [[[h2 m] u2]|e] eqn:Ee; cbn in E; [|discriminate]. injection E as <- <- <-.
    destruct (IH u1 (h ++ e1) h2 m u2 F2) as ([e2 ->] & C2 & A); auto.
    { intros k' a' Hi. rewrite app_length. specialize (Hl k' a' (or_intror Hi)). lia. }
    split; [exists (e1 ++ e2); now rewrite app_assoc|]. split; [easy|]. constructor; cbn.
    + split; [easy|]. split; [rewrite app_length; lia|]. split.
      * intros z Hz. rewrite owned_ext in Hz by easy. auto.
      * split; [intros p Hp; rewrite wrapped_ext in Hp by easy; auto|]. intros n. rewrite view_ext by easy. apply Fv.
    + eapply Forall2_imp; [|exact A]. cbn. intros [k1 x] [k2 y] Hi Hj (A1 & A2 & A3 & A5 & A4). cbn in *. split; [easy|]. split; [easy|].
      assert (Lx : x < length h) by (apply (Hl k1); now right). split; [|split].
      * intros z Hz. specialize (A3 z Hz). rewrite app_length in A3. lia.
      * intros p Hp. specialize (A5 p Hp). now rewrite wrapped_ext in A5.
      * intros n. rewrite A4. f_equal. now apply view_ext.
Qed.

Lemma views_values (v w : nat -> option vtree) l : forall m, Forall2 (fun x y => fst x = fst y /\ option_map values_of (w (snd y)) = option_map values_of (v (snd x))) l m ->
  forall f g, option_map values_of (option_map (VCont f) (views w m)) = option_map values_of (option_map (VCont g) (views v l)).
Proof.
  intros m H f g. induction H as [|[k a] [k' b] l m [H1 H2] H IH]; cbn in *; [easy|]. subst k'.
  destruct (w b) as [wb|], (v a) as [va|]; cbn in *; try discriminate; [|easy].
  destruct (views w m) as [wm|], (views v l) as [vl|]; cbn in *; try discriminate; [|easy]. cbn. injection IH as IH. injection H2 as H2. now rewrite IH, H2.
Qed.
Lemma hcopy_spec fuel : forall a uid h h' b uid', closed h -> a < length h -> hcopy fuel a uid h = Ok (h', b, uid') ->
  fresh h h' a b /\ same_values h h' a b.
Proof.
  induction fuel as [|fuel IH]; intros a uid h h' b uid' Hc La E; cbn [hcopy] in E; [discriminate|].
  destruct (nth_error h a) as [[x|f p|f v p|f l]|] eqn:Ea; try discriminate.
  - cbn in E. injection E as <- <- _. split.
    + pose proof (fresh_alloc h [] a (OConst (copy_fields uid f) p)) as Fa. rewrite app_nil_r in Fa. apply Fa; auto; [|intros z x []|intros z x []|].
      * intros z [Hz|Hz]; [destruct Hz|]. cbn in Hz. subst z. apply (Hc a _ p Ea). now right.
      * intros f' p' [= _ <-]. exists a, f. split; [constructor|easy].
    + intros [|n]; [easy|]. cbn [view]. rewrite nth_error_app2, Nat.sub_diag by lia. cbn [nth_error]. rewrite Ea.
      rewrite (app_old h _ p); [easy|]. apply (Hc a _ p Ea). now right.
  - destruct (nth_error h v) as [[x|? ?|? ? ?|? ?]|] eqn:Ev; try discriminate. cbn [alloc] in E.
    set (h1 := h ++ [CArr x]) in E. assert (C1 : closed h1) by (apply closed_alloc; [easy|]; intros z [Hz|Hz]; cbn in Hz; tauto).
    assert (Lp : p < length h) by (apply (Hc a _ p Ea); left; cbn; auto).
    destruct (hcopy fuel p (S uid) h1) as [[[h2 p'] u2]|e] eqn:Ep; cbn [bind] in E; [|discriminate]. injection E as <- <- _.
    destruct (IH p (S uid) h1 h2 p' u2 C1) as [[[e1 F1] F2 F3 F4 F5] Fv]; [unfold h1; rewrite app_length; lia|easy|].
    assert (Ex : h2 = h ++ (CArr x :: e1)) by (rewrite F1; unfold h1; now rewrite <- app_assoc).
    assert (Gv : nth_error h2 (length h) = Some (CArr x)) by (rewrite Ex, nth_error_app2, Nat.sub_diag by lia; reflexivity).
    assert (Lv : length h < length h2) by (rewrite Ex, app_length; cbn; lia).
    split.
    + rewrite Ex. apply fresh_alloc; rewrite <- ?Ex; auto.
      * intros z [[->| ->]|Hz]; [easy|easy|destruct Hz].
      * cbn. intros z y [->| ->] Hy.
        -- assert (y = length h); [|lia]. clear -Hy Gv. induction Hy as [|q e y Hq IHq E R]; [easy|]. subst q. rewrite Gv in E. injection E as <-. destruct R.
        -- specialize (F4 y Hy). unfold h1 in F4. rewrite app_length in F4. cbn in F4. lia.
      * cbn. intros z y [->| ->] Hy.
        -- exfalso. destruct Hy as (w & g & Hw & Ew). assert (w = length h); [|congruence]. clear -Hw Gv. induction Hw as [|q e y Hq IHq E R]; [easy|]. subst q. rewrite Gv in E. injection E as <-. destruct R.
        -- apply (wrapped_sub h a _ p y Ea); [cbn; auto|]. specialize (F5 y Hy). unfold h1 in F5. now rewrite wrapped_ext in F5.
      * discriminate.
    + intros [|n]; [easy|]. cbn [view]. rewrite nth_error_app2, Nat.sub_diag by lia. cbn [nth_error]. rewrite Ea, Ev.
      rewrite app_old by easy. rewrite Gv. rewrite (view_ext n h2) by easy. specialize (Fv n). unfold h1 in Fv. rewrite (view_ext n h) in Fv by easy.
      destruct (view n h2 p'), (view n h p); cbn in Fv |- *; try discriminate; [|easy]. injection Fv as Fv. now rewrite Fv.
  - destruct (each (hcopy fuel) l (S uid) h) as [[[h2 l'] u2]|e] eqn:Ee; cbn [bind alloc] in E; [|discriminate]. injection E as <- <- _.
    destruct (each_spec (hcopy fuel) IH l (S uid) h h2 l' u2 Hc) as ([e1 Ex] & C2 & A); auto.
    { intros k z Hz. apply (Hc a _ z Ea). left. cbn. eauto. }
    split.
    + rewrite Ex. apply fresh_alloc; rewrite <- ?Ex; auto.
      * intros z [(k & Hz)|Hz]; [|destruct Hz]. clear -A Hz. induction A as [|x y l m (A1 & A2 & A3 & A5 & A4) A IH]; [destruct Hz|]. destruct Hz as [->|Hz]; auto.
      * cbn. intros z x (k & Hz). clear -A Hz. induction A as [|x' y l m (A1 & A2 & A3 & A5 & A4) A IH]; [destruct Hz|]. destruct Hz as [->|Hz]; auto.
      * cbn. intros z q (k & Hz) Hq. assert (W : exists k' w, In (k', w) l /\ wrapped h w q).
        { clear -A Hz Hq. induction A as [|[k1 x'] y l m (A1 & A2 & A3 & A5 & A4) A IH]; [destruct Hz|]. destruct Hz as [->|Hz].
          - exists k1, x'. split; [now left|]. apply A5. exact Hq.
          - destruct (IH Hz) as (k' & w & H1 & H2). exists k', w. split; [now right|easy]. }
        destruct W as (k' & w & Hw & Hq'). apply (wrapped_sub h a _ w q Ea); [cbn; eauto|easy].
      * discriminate.
    + intros [|n]; [easy|]. cbn [view]. rewrite nth_error_app2, Nat.sub_diag by lia. cbn [nth_error]. rewrite Ea.
      apply views_values. eapply Forall2_imp; [|exact A]. intros x y Hx Hy (A1 & A2 & A3 & A5 & A4). split; [easy|]. rewrite view_ext by easy. apply A4.
Qed.

(** * Fields *)
Inductive chain (c : nat) : heap -> heap -> Prop :=
| chain_refl h : chain c h h
| chain_step h h' a up : chain c h h' -> owned h' c a -> chain c h (set_fields a up h').
Lemma chain_trans c h1 h2 h3 : chain c h1 h2 -> chain c h2 h3 -> chain c h1 h3.
Proof. intros H1 H2. induction H2; [easy|]. constructor; auto. Qed.
Lemma fields_get a up h x : nth_error (set_fields a up h) x =
  if x =? a then match nth_error h a with Some c => match fields_of c with Some f => Some (with_fields (up f) c) | None => Some c end | None => None end else nth_error h x.
Proof.
  unfold set_fields. destruct (Nat.eqb_spec x a) as [E|E].
  - subst x. destruct (nth_error h a) as [c|] eqn:Ea; [|easy]. destruct (fields_of c); [|easy]. apply write_same. now apply get_lt in Ea.
  - destruct (nth_error h a) as [c|]; [|easy]. destruct (fields_of c); [|easy]. now apply write_other.
Qed.
Lemma fields_length a up h : length (set_fields a up h) = length h.
Proof. unfold set_fields. destruct (nth_error h a) as [c|]; [|easy]. destruct (fields_of c); [apply write_length|easy]. Qed.
(** same objects but their fields *)
Definition alike (c d : cell) : Prop :=
  match c, d with
  | CArr x, CArr y => x = y
  | OConst _ p, OConst _ q => p = q
  | OData _ v p, OData _ w q => v = w /\ p = q
  | OCont _ l, OCont _ m => l = m
  | _, _ => False
  end.
Lemma alike_refl c : alike c c.
Proof. destruct c; cbn; auto. Qed.
Definition restyled (h h' : heap) : Prop := length h' = length h /\ forall x, match nth_error h x, nth_error h' x with Some c, Some d => alike c d | None, None => True | _, _ => False end.
Lemma restyled_refl h : restyled h h.
Proof. split; [easy|]. intros x. destruct (nth_error h x); [apply alike_refl|easy]. Qed.
Lemma fields_restyled a up h : restyled h (set_fields a up h).
Proof.
  split; [apply fields_length|]. intros x. rewrite fields_get. destruct (Nat.eqb_spec x a) as [E|E].
  - subst x. destruct (nth_error h a) as [c|]; [|easy]. destruct c; cbn; auto.
  - destruct (nth_error h x); [apply alike_refl|easy].
Qed.
Lemma restyled_trans h1 h2 h3 : restyled h1 h2 -> restyled h2 h3 -> restyled h1 h3.
Proof.
  intros [L1 H1] [L2 H2]. split; [congruence|]. intros x. specialize (H1 x). specialize (H2 x).
  destruct (nth_error h1 x) as [c1|], (nth_error h2 x) as [c2|], (nth_error h3 x) as [c3|]; try easy.
  destruct c1, c2; try easy; destruct c3; try easy; cbn in *; intuition congruence.
Qed.
Lemma chain_restyled c h h' : chain c h h' -> restyled h h'.
Proof. induction 1; [apply restyled_refl|]. eapply restyled_trans; [eassumption|apply fields_restyled]. Qed.
Lemma alike_owns c d x : alike c d -> owns d x <-> owns c x.
Proof. destruct c, d; cbn; try easy; intuition (subst; auto). Qed.
Lemma alike_refers c d x : alike c d -> refers d x <-> refers c x.
Proof. intros H. unfold refers. rewrite (alike_owns c d x H). destruct c, d; cbn in *; try easy. now subst. Qed.
Lemma restyled_owned h h' a x : restyled h h' -> owned h' a x <-> owned h a x.
Proof.
  intros [_ H]. split; intros O; induction O as [|b c d O IH E R]; try constructor; specialize (H b); rewrite E in H.
  - destruct (nth_error h b) as [e|] eqn:Eb; [|easy]. apply (owned_step h a b e d IH Eb). now apply (alike_owns e c).
  - destruct (nth_error h' b) as [e|] eqn:Eb; [|easy]. apply (owned_step h' a b e d IH Eb). now apply (alike_owns c e).
Qed.
Lemma restyled_closed h h' : restyled h h' -> closed h -> closed h'.
Proof.
  intros [L H] Hc a c b E R. rewrite L. specialize (H a). rewrite E in H. destruct (nth_error h a) as [e|] eqn:Ea; [|easy].
  apply (Hc a e b Ea). now apply (alike_refers e c).
Qed.
Lemma restyled_values h h' n : restyled h h' -> forall a, option_map values_of (view n h' a) = option_map values_of (view n h a).
Proof.
  intros [L H]. induction n as [|n IH]; intros a; cbn [view]; [easy|]. pose proof (H a) as Ha.
  destruct (nth_error h a) as [[x|f p|f v p|f l]|], (nth_error h' a) as [[x'|f' p'|f' v' p'|f' l']|]; try easy; cbn in Ha.
  - subst p'. pose proof (H p) as Hp. destruct (nth_error h p) as [[y|? ?|? ? ?|? ?]|], (nth_error h' p) as [[y'|? ?|? ? ?|? ?]|]; try easy. cbn in Hp. now subst.
  - destruct Ha as [-> ->]. specialize (H v'). specialize (IH p').
    destruct (nth_error h v') as [[y|? ?|? ? ?|? ?]|], (nth_error h' v') as [[y'|? ?|? ? ?|? ?]|]; try easy. cbn in H. subst y'.
    destruct (view n h' p'), (view n h p'); cbn in IH |- *; try discriminate; [|easy]. injection IH as IH. now rewrite IH.
  - subst l'. apply views_values. clear -IH. induction l as [|[k b] l IHl]; constructor; [now split|easy].
Qed.
Lemma chain_other c h h' x : chain c h h' -> ~ owned h c x -> nth_error h' x = nth_error h x.
Proof.
  intros H Hx. induction H as [|h h' a up H IH Ho]; [easy|]. rewrite fields_get. destruct (Nat.eqb_spec x a) as [E|E]; [|auto].
  exfalso. apply Hx. subst a. now apply (restyled_owned h h' c x (chain_restyled _ _ _ H)).
Qed.
Lemma hparent_chain fuel : forall a parent h c, owned h c a -> chain c h (hparent fuel a parent h).
Proof.
  induction fuel as [|fuel IH]; intros a parent h c Ha; cbn [hparent]; [constructor|].
  set (h1 := set_fields a _ h). assert (C1 : chain c h h1) by (constructor; [constructor|easy]).
  pose proof (restyled_owned h h1 c) as O1. specialize (O1 a (chain_restyled _ _ _ C1)) as Oa.
  assert (Ow : forall x, owned h c x -> owned h1 c x) by (intros x Hx; apply (restyled_owned h h1 c x); [exact (chain_restyled _ _ _ C1)|easy]).
  destruct (nth_error h a) as [[x|f p|f v p|f l]|] eqn:Ea; try exact C1.
  - eapply chain_trans; [exact C1|]. apply IH, Ow. apply (owned_step h c a _ p Ha Ea). cbn. auto.
  - assert (S : forall k b, In (k, b) l -> owned h1 c b).
    { intros k b Hb. apply Ow. apply (owned_step h c a _ b Ha Ea). cbn. eauto. }
    clear Ea. revert C1 S. generalize h1. clear h1 O1 Oa Ow. induction l as [|[k b] l IHl]; intros h1 C1 S; cbn [fold_left fst snd]; [easy|].
    assert (C2 : chain c h1 (hparent fuel b (sub_parent parent (Some k) h1) h1)) by (apply IH, (S k b); now left).
    apply IHl; [exact (chain_trans _ _ _ _ C1 C2)|]. intros k' b' Hi. apply (restyled_owned h1); [exact (chain_restyled _ _ _ C2)|]. apply (S k' b'). now right.
Qed.

(** * Spawning *)
Lemma hspawn_spec fuel a uid h h' c uid' : closed h -> a < length h -> (forall f p, nth_error h a <> Some (OConst f p)) ->
  hspawn fuel a uid h = Ok (h', c, uid') ->
  closed h' /\ c < length h' /\ length h <= length h' /\ sep h' c a /\ (wraps_arrays h -> own_arrays h a -> sep h' a c) /\
  (forall x, x < length h -> nth_error h' x = nth_error h x) /\ same_values h h' a c.
Proof.
  intros Hc La Hk E. unfold hspawn in E.
  assert (E' : bind (hcopy fuel a uid h) (fun '(h1, b, uid1) => Ok (hparent fuel b (Some a) h1, b, uid1)) = Ok (h', c, uid')).
  { destruct (nth_error h a) as [[x|f p|f v p|f l]|] eqn:Ea; try exact E. exfalso. exact (Hk f p eq_refl). }
  destruct (hcopy fuel a uid h) as [[[h1 b] u1]|e] eqn:Ec; cbn in E'; [|discriminate]. injection E' as <- <- _.
  destruct (hcopy_spec fuel a uid h h1 b u1 Hc La Ec) as [[[l F1] F2 F3 F4 F5] Fv].
  pose proof (hparent_chain fuel b (Some a) h1 b (owned_self h1 b)) as C. set (h2 := hparent fuel b (Some a) h1) in *.
  pose proof (chain_restyled _ _ _ C) as R. assert (L1 : length h <= length h1) by (rewrite F1, app_length; lia).
  assert (K : forall x, x < length h -> nth_error h2 x = nth_error h x).
  { intros x Hx. rewrite (chain_other b h1 h2 x C); [rewrite F1; now apply app_old|]. intros O. specialize (F4 x O). lia. }
  assert (Fr : forall x, seen h a x -> nth_error h2 x = nth_error h x) by (intros x Hx; apply K; exact (seen_lt h a x Hc La Hx)).
  pose proof (restyled_closed _ _ R F2) as C2. split; [exact C2|]. assert (RL : length h2 = length h1) by apply R. split; [lia|]. split; [lia|].
  split; [|split; [|split; [exact K|]]].
  - intros x Hx Sx. rewrite (restyled_owned h1 h2 b x R) in Hx. specialize (F4 x Hx). rewrite (seen_frame h h2 a Fr x) in Sx. pose proof (seen_lt h a x Hc La Sx). lia.
  - intros Hw Ho x Hx Sx.
    assert (O : owned h a x).
    { clear Sx. induction Hx as [|y d z Hy IH Ey Rz]; [constructor|]. rewrite Fr in Ey by (now apply owned_seen). exact (owned_step h a y d z IH Ey Rz). }
    pose proof (owned_lt h a x Hc La O) as Lx.
    assert (T : owned h2 b x \/ wrapped h2 b x /\ exists y, nth_error h2 x = Some (CArr y)).
    { clear O Lx Hx. induction Sx as [|y d z Sy IH Ey Rz]; [left; constructor|]. destruct IH as [IH|[IH (w & Ew)]].
      - destruct Rz as [Rz|Rz]; [left; exact (owned_step h2 b y d z IH Ey Rz)|]. destruct d as [|f p| |]; try easy. cbn in Rz. subst z.
        right. assert (W : wrapped h2 b p) by (exists y, f; auto). split; [exact W|].
        assert (W1 : wrapped h1 b p).
        { destruct W as (y1 & f1 & H1 & H2). rewrite (restyled_owned h1 h2 b y1 R) in H1. destruct R as [_ R]. specialize (R y1). rewrite H2 in R.
          destruct (nth_error h1 y1) as [[|f2 p2| |]|] eqn:E1; try easy. cbn in R. subst p2. exists y1, f2. auto. }
        destruct (F5 p W1) as (y0 & f0 & O0 & E0). destruct (Hw y0 f0 p E0) as (v & Ev). exists v. rewrite K; [easy|]. now apply get_lt in Ev.
      - exfalso. rewrite Ew in Ey. injection Ey as <-. destruct Rz as [Rz|Rz]; destruct Rz. }
    destruct T as [T|[T _]].
    + rewrite (restyled_owned h1 h2 b x R) in T. specialize (F4 x T). lia.
    + assert (W1 : wrapped h1 b x).
      { destruct T as (y1 & f1 & H1 & H2). rewrite (restyled_owned h1 h2 b y1 R) in H1. destruct R as [_ R]. specialize (R y1). rewrite H2 in R.
        destruct (nth_error h1 y1) as [[|f2 p2| |]|] eqn:E1; try easy. cbn in R. subst p2. exists y1, f2. auto. }
      destruct (F5 x W1) as (y0 & f0 & O0 & E0). exact (Ho y0 f0 x O0 E0 O).
  - intros n. rewrite (restyled_values h1 h2 n R). apply Fv.
Qed.

(** * Attributes of copies *)
Definition clean (n uid uid' : nat) (h : heap) : Prop := forall x o f, n <= x -> nth_error h x = Some o -> fields_of o = Some f ->
  f_frozen f = false /\ f_loss f = None /\ uid <= f_uid f < uid'.
Lemma clean_app n uid u1 uid' h e : uid <= u1 <= uid' -> clean n uid u1 h -> clean (length h) u1 uid' (h ++ e) -> clean n uid uid' (h ++ e).
Proof.
  intros Hu H1 H2 x o f Hx Eo Ef. destruct (le_lt_dec (length h) x) as [L|L].
  - destruct (H2 x o f L Eo Ef) as (A & B & C). repeat split; auto; lia.
  - rewrite nth_error_app1 in Eo by easy. destruct (H1 x o f Hx Eo Ef) as (A & B & C). repeat split; auto; lia.
Qed.
Lemma clean_same n uid uid' h : n = length h -> clean n uid uid' h.
Proof. intros -> x o f Hx Eo _. exfalso. apply (proj2 (nth_error_None h x)) in Hx. congruence. Qed.
Lemma each_clean (make : maker) : (forall a uid h h' b uid', make a uid h = Ok (h', b, uid') -> uid <= uid' /\ (exists e, h' = h ++ e) /\ clean (length h) uid uid' h') ->
  forall l uid h h' m uid', each make l uid h = Ok (h', m, uid') -> uid <= uid' /\ (exists e, h' = h ++ e) /\ clean (length h) uid uid' h'.
Proof.
  intros Hm. induction l as [|[k a] l IH]; intros uid h h' m uid' E; cbn [each] in E.
  - injection E as <- _ <-. split; [lia|]. split; [exists []; now rewrite app_nil_r|]. now apply clean_same.
  - destruct (make a uid h) as [[[h1 b] u1]|e] eqn:Em; [|discriminate E]. cbn [bind] in E. destruct (each make l u1 h1) as [[[h2 m'] u2]|e] eqn:Ee; [|discriminate E]. injection E as <- _ <-.
    destruct (Hm _ _ _ _ _ _ Em) as (U1 & [e1 ->] & C1). destruct (IH _ _ _ _ _ Ee) as (U2 & [e2 ->] & C2). split; [lia|]. split; [exists (e1 ++ e2); now rewrite app_assoc|].
    apply (clean_app _ _ u1); [lia|exact C1|exact C2].
Qed.
Lemma clean_last n uid u1 h o : clean n (S uid) u1 h -> (forall f, fields_of o = Some f -> f_frozen f = false /\ f_loss f = None /\ f_uid f = uid) -> uid < u1 -> clean n uid u1 (h ++ [o]).
Proof.
  intros H Ho Hu x o' f Hx Eo Ef. destruct (le_lt_dec (length h) x) as [L|L].
  - rewrite nth_error_app2 in Eo by easy. destruct (x - length h) as [|k]; [|destruct k; discriminate Eo]. cbn in Eo. injection Eo as <-. destruct (Ho f Ef) as (A & B & C). repeat split; auto; lia.
  - rewrite nth_error_app1 in Eo by easy. destruct (H x o' f Hx Eo Ef) as (A & B & C). repeat split; auto; lia.
Qed.
Lemma hcopy_clean fuel : forall a uid h h' b uid', hcopy fuel a uid h = Ok (h', b, uid') -> uid <= uid' /\ (exists e, h' = h ++ e) /\ clean (length h) uid uid' h'.
Proof.
  induction fuel as [|fuel IH]; intros a uid h h' b uid' E; cbn [hcopy] in E; [discriminate E|].
  destruct (nth_error h a) as [[x|f p|f v p|f l]|]; try discriminate E.
  - cbn in E. injection E as <- _ <-. split; [lia|]. split; [eauto|]. apply clean_last; [now apply clean_same| |lia]. intros g [= <-]. auto.
  - destruct (nth_error h v) as [[x|? ?|? ? ?|? ?]|]; try discriminate E. cbn [alloc] in E.
    destruct (hcopy fuel p (S uid) (h ++ [CArr x])) as [[[h2 p'] u2]|e] eqn:Ep; cbn [bind] in E; [|discriminate E]. injection E as <- _ <-.
    destruct (IH _ _ _ _ _ _ Ep) as (U & [e1 ->] & C). split; [lia|]. split; [exists (CArr x :: e1 ++ [OData (copy_fields uid f) (length h) p']); rewrite <- !app_assoc; reflexivity|].
    apply clean_last; [|intros g [= <-]; auto|lia]. intros y o g Hy Eo Eg. destruct (Nat.eq_dec y (length h)) as [->|Hne].
    + exfalso. rewrite <- app_assoc, nth_error_app2, Nat.sub_diag in Eo by lia. cbn in Eo. injection Eo as <-. discriminate Eg.
    + apply (C y o g); auto. rewrite app_length. cbn. lia.
  - destruct (each (hcopy fuel) l (S uid) h) as [[[h2 l'] u2]|e] eqn:Ee; cbn [bind alloc] in E; [|discriminate E]. injection E as <- _ <-.
    destruct (each_clean (hcopy fuel) IH _ _ _ _ _ _ Ee) as (U & [e1 ->] & C). split; [lia|]. split; [exists (e1 ++ [OCont (copy_fields uid f) l']); now rewrite app_assoc|].
    apply clean_last; [exact C|intros g [= <-]; auto|lia].
Qed.
(** the heritage does not change them *)
Definition same_attributes (h h' : heap) : Prop := forall x o' f', nth_error h' x = Some o' -> fields_of o' = Some f' ->
  exists o f, nth_error h x = Some o /\ fields_of o = Some f /\ f_frozen f' = f_frozen f /\ f_loss f' = f_loss f /\ f_uid f' = f_uid f.
Lemma same_refl h : same_attributes h h.
Proof. intros x o f Eo Ef. exists o, f. auto. Qed.
Lemma same_trans h1 h2 h3 : same_attributes h1 h2 -> same_attributes h2 h3 -> same_attributes h1 h3.
Proof.
  intros H1 H2 x o f Eo Ef. destruct (H2 x o f Eo Ef) as (o2 & f2 & E2 & F2 & A2 & B2 & C2). destruct (H1 x o2 f2 E2 F2) as (o1 & f1 & E1 & F1 & A1 & B1 & C1).
  exists o1, f1. repeat split; congruence.
Qed.
Lemma set_parent_same a p h : same_attributes h (set_fields a (set_parent p) h).
Proof.
  unfold set_fields. destruct (nth_error h a) as [c|] eqn:Ea; [|apply same_refl]. destruct (fields_of c) as [f|] eqn:Ef; [|apply same_refl].
  intros x o' f' Eo Ef'. destruct (Nat.eq_dec x a) as [->|Hne].
  - assert (L : a < length h) by (apply nth_error_Some; congruence). rewrite write_same in Eo by easy. injection Eo as <-. exists c, f.
    destruct c; cbn in Ef, Ef'; [discriminate Ef| | |]; injection Ef as ->; injection Ef' as <-; destruct p; repeat split; auto.
  - rewrite write_other in Eo by congruence. exists o', f'. auto.
Qed.
Lemma hparent_same fuel : forall a p h, same_attributes h (hparent fuel a p h).
Proof.
  induction fuel as [|fuel IH]; intros a p h; cbn [hparent]; [apply same_refl|]. cbn zeta.
  destruct (nth_error h a) as [[x|f q|f v q|f l]|]; try apply set_parent_same.
  - eapply same_trans; [apply set_parent_same|apply IH].
  - apply (same_trans h (set_fields a (set_parent (parent_fields p h)) h)); [apply set_parent_same|]. generalize (set_fields a (set_parent (parent_fields p h)) h). induction l as [|kb l IHl]; intros g; cbn [fold_left]; [apply same_refl|].
    eapply same_trans; [apply IH|apply IHl].
Qed.
Lemma hspawn_fields fuel a uid h h' c uid' : closed h -> a < length h -> (forall f p, nth_error h a <> Some (OConst f p)) -> hspawn fuel a uid h = Ok (h', c, uid') ->
  forall x o f, owned h' c x -> nth_error h' x = Some o -> fields_of o = Some f -> f_frozen f = false /\ f_loss f = None /\ uid <= f_uid f < uid'.
Proof.
  intros Hc La Hk E. unfold hspawn in E. assert (E' : bind (hcopy fuel a uid h) (fun '(h1, b, uid1) => Ok (hparent fuel b (Some a) h1, b, uid1)) = Ok (h', c, uid')).
  { destruct (nth_error h a) as [[x|f q|f v q|f l]|]; try exact E. exfalso. now apply (Hk f q). }
  clear E. destruct (hcopy fuel a uid h) as [[[h1 b] u1]|e] eqn:Ec; [|discriminate E']. cbn [bind] in E'. injection E' as <- <- <-.
  destruct (hcopy_clean _ _ _ _ _ _ _ Ec) as (_ & _ & C). destruct (hcopy_spec fuel a uid h h1 b u1 Hc La Ec) as [[_ _ _ F4 _] _].
  pose proof (chain_restyled _ _ _ (hparent_chain fuel b (Some a) h1 b (owned_self h1 b))) as R.
  intros x o f Hx Eo Ef. rewrite (restyled_owned h1 _ b x R) in Hx. destruct (hparent_same fuel b (Some a) h1 x o f Eo Ef) as (o1 & f1 & E1 & F1 & A & B & D).
  rewrite A, B, D. exact (C x o1 f1 (F4 x Hx) E1 F1).
Qed.
