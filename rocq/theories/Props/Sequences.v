(** C41: latin hypercubes; C42: Halton sequences; C43: primes; C44: rescaling. *)
From Coq Require Import Arith ZArith QArith Bool Lia Lqa Permutation Sorted List.
From Verif.Model Require Import Prelude MultiValue Sequences.
From Verif.Spec Require Import Sequences.
From Verif.Proofs Require Import MultiValue Sequences.
Import ListNotations.
Open Scope Q_scope.

(** C41. In each coordinate, each cell has exactly one of the points. *)
Lemma map2_nth {A B C} (f : A -> B -> C) l : forall l' k a b, nth_error l k = Some a -> nth_error l' k = Some b -> nth_error (map2 f l l') k = Some (f a b).
Proof. induction l as [|x l IH]; intros [|y l'] [|k] a b Ha Hb; cbn in *; try discriminate; [congruence|eauto]. Qed.
Theorem C41_cells (b : nat) (perms : list (list nat)) (draws : nat -> list Q) (k j : nat) :
  Forall (fun p => Permutation p (seq 0 b)) perms ->
  (forall i, (i < b)%nat -> length (draws i) = length perms /\ Forall (fun u => 0 <= u /\ u < 1) (draws i)) ->
  (k < length perms)%nat -> (j < b)%nat ->
  exactly_one 0 b (fun i => exists x, nth_error (lhs_point b perms draws i) k = Some x /\ in_cell b j x).
Proof.
  intros Hp Hd Hk Hj. destruct (nth_error perms k) as [p|] eqn:Ep; [|apply nth_error_None in Ep; lia].
  assert (Hperm : Permutation p (seq 0 b)) by (rewrite Forall_forall in Hp; apply Hp; eapply nth_error_In, Ep).
  assert (Hlen : length p = b) by (rewrite Hperm; apply seq_length).
  assert (Hcell : forall i, (i < b)%nat -> exists x, nth_error (lhs_point b perms draws i) k = Some x /\ in_cell b (nth i p 0%nat) x).
  { intros i Hi. destruct (Hd i Hi) as (Hl & Hu). destruct (nth_error (draws i) k) as [u|] eqn:Eu; [|apply nth_error_None in Eu; lia].
    exists ((qnat (nth i p 0%nat) + u) / qnat b). split; [unfold lhs_point; now apply (map2_nth (fun p u => (qnat (nth i p 0%nat) + u) / qnat b))|].
    assert (Hu' : 0 <= u /\ u < 1) by (rewrite Forall_forall in Hu; apply Hu; eapply nth_error_In, Eu).
    rewrite in_cell_alt by lia. assert (Hb : 0 < qnat b) by (apply (qnat_lt 0); lia). setoid_replace ((qnat (nth i p 0%nat) + u) / qnat b * qnat b) with (qnat (nth i p 0%nat) + u) by (field; lra).
    rewrite qnat_S. lra. }
  assert (Hin : In j p) by (rewrite Hperm; apply in_seq; lia). apply (In_nth _ _ 0%nat) in Hin as (i & Hi & Ei). rewrite Hlen in Hi. exists i. cbn. split.
  - split; [lia|]. destruct (Hcell i Hi) as (x & Ex & Hx). exists x. split; [exact Ex|]. now rewrite Ei in Hx.
  - intros i' Hi' (x & Ex & Hx). destruct (Hcell i' ltac:(lia)) as (x' & Ex' & Hx'). rewrite Ex in Ex'. injection Ex' as <-.
    assert (E : nth i' p 0%nat = j) by (eapply in_cell_unique; [|exact Hx'|exact Hx]; lia).
    assert (Hnd : NoDup p) by (rewrite Hperm; apply seq_NoDup). apply (proj1 (NoDup_nth p 0%nat) Hnd); [lia|lia|congruence].
Qed.
(** Any history of calls and reinitializations: a call returns the point numbered by the calls made since the last
    reinitialization, and fails if there were [budget] of them. Hence the same points again after a reinitialization. *)
Definition calls_since (l : list bool) : nat := fold_left (fun n (c : bool) => if c then S n else 0%nat) l 0%nat.
Lemma history_app {P} (point : nat -> P) l l' : forall s, history point s (l ++ l') =
  (let '(s', rs) := history point s l in let '(s'', rs') := history point s' l' in (s'', rs ++ rs')).
Proof.
  induction l as [|c l IH]; intros s; cbn; [now destruct (history point s l')|]. destruct c; [|apply IH]. destruct (call point s) as [s1 r]. rewrite IH.
  destruct (history point s1 l) as [s2 rs]. now destruct (history point s2 l').
Qed.
Theorem C41_history {P} (point : nat -> P) (b : nat) (l : list bool) :
  snd (call point (fst (history point (mksampler (Some b) 0) l))) = (if Nat.ltb (calls_since l) b then Ok (point (calls_since l)) else Err AssertionError).
Proof.
  assert (H : fst (history point (mksampler (Some b) 0) l) = mksampler (Some b) (Nat.min b (calls_since l))).
  { induction l as [|c l IH] using rev_ind; [cbn; now rewrite Nat.min_0_r|]. rewrite history_app. destruct (history point (mksampler (Some b) 0) l) as [s rs]. cbn [fst] in IH. subst s.
    unfold calls_since. rewrite fold_left_app. fold (calls_since l). destruct c; cbn [fold_left history].
    - unfold call. cbn [budget index]. destruct (Nat.ltb_spec (Nat.min b (calls_since l)) b); cbn [fst]; f_equal; lia.
    - unfold reinitialize. cbn [fst budget]. f_equal. lia. }
  rewrite H. unfold call. cbn [budget index]. destruct (Nat.ltb_spec (Nat.min b (calls_since l)) b), (Nat.ltb_spec (calls_since l) b); cbn; try lia; [|reflexivity]. now rewrite Nat.min_r by lia.
Qed.
Example C41_example : snd (history (lhs_point 3 [[2; 0; 1]; [0; 1; 2]]%nat (fun _ => [1 # 2; 0])) (mksampler (Some 3%nat) 0) [true; true; false; true; true; true; true]) =
  [Ok [(2 + (1 # 2)) / 3; (0 + 0) / 3]; Ok [(0 + (1 # 2)) / 3; (1 + 0) / 3]; Ok [(2 + (1 # 2)) / 3; (0 + 0) / 3]; Ok [(0 + (1 # 2)) / 3; (1 + 0) / 3]; Ok [(1 + (1 # 2)) / 3; (2 + 0) / 3]; Err AssertionError].
Proof. reflexivity. Qed.

(** C42. Van der Corput values are in [0, 1) and pairwise distinct. *)
Lemma dp_nth p : digit_permutation p -> nth 0 p 0%nat = 0%nat.
Proof. intros (_ & _ & H). now apply nth_error_nth with (d := 0%nat) in H. Qed.
Theorem C42_range (p : list nat) (i : nat) : digit_permutation p -> exists x, vdc i p = Ok x /\ 0 <= x /\ x < 1.
Proof.
  intros Hp. pose proof (dp_nth p Hp) as H0. destruct Hp as (Hb & Hperm & _). destruct (vdc_radinv p Hb H0 i) as (x & E & Hx). exists x. split; [exact E|]. rewrite Hx. now apply radinv_range.
Qed.
Theorem C42_distinct (p : list nat) (i i' : nat) (x x' : Q) : digit_permutation p -> vdc i p = Ok x -> vdc i' p = Ok x' -> x == x' -> i = i'.
Proof.
  intros Hp E E' Hx. pose proof (dp_nth p Hp) as H0. destruct Hp as (Hb & Hperm & _). destruct (vdc_radinv p Hb H0 i) as (y & Ey & Hy). destruct (vdc_radinv p Hb H0 i') as (y' & Ey' & Hy').
  apply Nat.succ_inj, (radinv_inj p Hb Hperm H0). rewrite <- Hy, <- Hy'. rewrite E in Ey. rewrite E' in Ey'. injection Ey as <-. injection Ey' as <-. exact Hx.
Qed.
(** Equidistribution of the Halton sequence: for pairwise coprime bases, cut the coordinate of base b in b^k cells, for any
    levels k. Then among any product of the b^k consecutive points, exactly one is in each box. *)
Record coordinate : Type := mkcoord { c_permut : list nat; c_level : nat; c_cell : nat }.
Definition c_cells (c : coordinate) : nat := (length (c_permut c) ^ c_level c)%nat.
Lemma halton_ok ps i xs : halton_point ps i = Ok xs <-> Forall2 (fun p x => vdc i p = Ok x) ps xs.
Proof.
  revert xs. induction ps as [|p ps IH]; intros xs; cbn [halton_point].
  - split; [intros E; injection E as <-; constructor|intros H; inversion H; reflexivity].
  - destruct (vdc i p) as [x|e] eqn:Ex; cbn [bind]; [|split; [discriminate|intros H; inversion H; congruence]]. destruct (halton_point ps i) as [ys|e]; cbn [bind].
    + split; [intros E; injection E as <-; constructor; [assumption|now apply IH]|]. intros H. inversion H as [|? y ? l Hy Hl]; subst. apply IH in Hl. congruence.
    + split; [discriminate|]. intros H. inversion H as [|? y ? l Hy Hl]; subst. apply IH in Hl. discriminate.
Qed.
Lemma gcd_pow a b : forall j k, Nat.gcd a b = 1%nat -> Nat.gcd (a ^ j) (b ^ k) = 1%nat.
Proof.
  intros j k H. assert (Hone : forall c n, Nat.gcd c b = 1%nat -> Nat.gcd c (b ^ n) = 1%nat).
  { intros c n Hc. replace (b ^ n)%nat with (product (repeat b n)) by (induction n; cbn; congruence). apply coprime_prod. apply Forall_forall. intros x Hx. apply repeat_spec in Hx as ->. exact Hc. }
  apply Hone. rewrite Nat.gcd_comm. replace (a ^ j)%nat with (product (repeat a j)) by (induction j; cbn; congruence). apply coprime_prod. apply Forall_forall. intros x Hx. apply repeat_spec in Hx as ->. now rewrite Nat.gcd_comm.
Qed.
Lemma box_residue coords : Forall (fun c => digit_permutation (c_permut c) /\ (c_cell c < c_cells c)%nat) coords ->
  ForallOrdPairs (fun c c' => Nat.gcd (length (c_permut c)) (length (c_permut c')) = 1%nat) coords ->
  (0 < product (map c_cells coords))%nat /\
  exists r, (r < product (map c_cells coords))%nat /\ forall n, Forall (fun c => in_cell (c_cells c) (c_cell c) (radinv (c_permut c) n)) coords <-> (n mod product (map c_cells coords) = r)%nat.
Proof.
  intros Hc Hp. induction Hp as [|c cs Hc1 Hp IH].
  - split; [cbn; lia|]. exists 0%nat. split; [cbn; lia|]. intros n. cbn [map product]. rewrite Nat.mod_1_r. split; [auto|constructor].
  - inversion Hc as [|? ? (Hd & Hcell) Hcs]; subst. destruct (IH Hcs) as (HM & R & HR & HiffR). pose proof (dp_nth _ Hd) as H0. destruct Hd as (Hb & Hperm & _).
    destruct (cell_residue (c_permut c) Hb Hperm H0 (c_level c) (c_cell c) Hcell) as (r & Hr & Hiff). fold (c_cells c) in *.
    assert (Hm : (0 < c_cells c)%nat) by lia.
    assert (Hg : Nat.gcd (c_cells c) (product (map c_cells cs)) = 1%nat).
    { apply coprime_prod. apply Forall_forall. intros x Hx. apply in_map_iff in Hx as (c' & <- & Hx). rewrite Forall_forall in Hc1. apply gcd_pow. now apply Hc1. }
    destruct (crt2 (c_cells c) (product (map c_cells cs)) r R Hm HM Hg Hr HR) as (x & Hx & Hcrt). cbn [map product]. split; [nia|]. exists x. split; [exact Hx|].
    intros n. rewrite <- Hcrt, <- Hiff, <- HiffR. split; [intros H; inversion H; auto|intros (H1 & H2); now constructor].
Qed.
Theorem C42_equidistributed (coords : list coordinate) (start : nat) :
  Forall (fun c => digit_permutation (c_permut c) /\ (c_cell c < c_cells c)%nat) coords ->
  ForallOrdPairs (fun c c' => Nat.gcd (length (c_permut c)) (length (c_permut c')) = 1%nat) coords ->
  exactly_one start (product (map c_cells coords)) (fun i => exists xs, halton_point (map c_permut coords) i = Ok xs /\
    Forall2 (fun c x => in_cell (c_cells c) (c_cell c) x) coords xs).
Proof.
  intros Hc Hp. destruct (box_residue coords Hc Hp) as (HM & r & Hr & Hiff). set (M := product (map c_cells coords)) in *.
  assert (Hpoint : forall i, (exists xs, halton_point (map c_permut coords) i = Ok xs /\ Forall2 (fun c x => in_cell (c_cells c) (c_cell c) x) coords xs) <-> (S i mod M = r)%nat).
  { intros i. rewrite <- Hiff. clear - Hc. induction Hc as [|c cs (Hd & Hcell) Hcs IH].
    - split; [constructor|]. intros _. exists []. split; [reflexivity|constructor].
    - pose proof (dp_nth _ Hd) as H0. destruct Hd as (Hb & Hperm & _). destruct (vdc_radinv (c_permut c) Hb H0 i) as (x & Ex & Hx).
      assert (Hcc : in_cell (c_cells c) (c_cell c) x <-> in_cell (c_cells c) (c_cell c) (radinv (c_permut c) (S i))) by (unfold in_cell; now rewrite Hx). split.
      + intros (xs & E & H2). apply halton_ok in E. inversion E as [|? y ? ys Hy Hys]; subst. inversion H2; subst. constructor; [apply Hcc; congruence|].
        apply IH. exists ys. split; [now apply halton_ok|assumption].
      + intros H. inversion H as [|? ? H1 H2]; subst. apply IH in H2 as (xs & E & H2). exists (x :: xs). cbn [map halton_point]. rewrite Ex. cbn [bind]. rewrite E. cbn [bind]. split; [reflexivity|]. constructor; [now apply Hcc|assumption]. }
  destruct (block_one M r (S start) HM Hr) as (n & (Hn & En) & Huniq). exists (pred n). split.
  - split; [lia|]. apply Hpoint. now replace (S (pred n)) with n by lia.
  - intros i' Hi' H'. apply Hpoint in H'. specialize (Huniq (S i') ltac:(lia) H'). lia.
Qed.
(** The permutations of digits used. *)
Theorem C42_permutations (p : nat) (chosen : list nat) : (2 <= p)%nat -> Permutation chosen (seq 1 (p - 1)) ->
  digit_permutation (plain_permutation p) /\ digit_permutation (scrambled_permutation chosen) /\ length (plain_permutation p) = p /\ length (scrambled_permutation chosen) = p.
Proof.
  intros Hp Hc. assert (Hl : length chosen = (p - 1)%nat) by (rewrite Hc; apply seq_length). unfold digit_permutation, plain_permutation, scrambled_permutation. cbn [length]. rewrite seq_length, Hl.
  replace (S (p - 1)) with p by lia. repeat split; try lia; try reflexivity; try exact Hp.
  - destruct p; [lia|]. reflexivity.
  - rewrite Hc. destruct p; [lia|]. cbn [seq]. replace (S p - 1)%nat with p by lia. reflexivity.
Qed.
(** Hammersley: the first coordinate is the middle of the cell of the index, the others are those of Halton. *)
Theorem C42_hammersley (b : nat) (permuts : list (list nat)) (i : nat) : (i < b)%nat -> Forall digit_permutation permuts ->
  exists x xs, hammersley_point b permuts i = Ok (x :: xs) /\ halton_point permuts i = Ok xs /\ in_cell b i x /\ x * qnat b == qnat i + (1 # 2) /\ Forall (fun y => 0 <= y /\ y < 1) xs.
Proof.
  intros Hi Hp. assert (H : exists xs, halton_point permuts i = Ok xs /\ Forall (fun y => 0 <= y /\ y < 1) xs).
  { induction Hp as [|p ps Hp0 Hp IH]; [exists []; split; [reflexivity|constructor]|]. destruct IH as (xs & E & H). destruct (C42_range p i Hp0) as (x & Ex & Hx). exists (x :: xs). cbn [halton_point]. rewrite Ex. cbn [bind]. rewrite E. split; [reflexivity|now constructor]. }
  destruct H as (xs & E & H). exists ((qnat i + (1 # 2)) / qnat b), xs. unfold hammersley_point. rewrite E. split; [reflexivity|]. split; [reflexivity|].
  assert (Hb : 0 < qnat b) by (apply (qnat_lt 0); lia). assert (Ex : (qnat i + (1 # 2)) / qnat b * qnat b == qnat i + (1 # 2)) by (field; lra). split; [|split; [exact Ex|exact H]].
  rewrite in_cell_alt by lia. rewrite Ex, qnat_S. lra.
Qed.
(** The hypotheses are met: bases 2 and 3, levels 2 and 1: the box [1/4, 1/2) x [2/3, 1) has one of the first 12 points. *)
Example C42_example : exactly_one 0 12 (fun i => exists xs, halton_point [[0; 1]; [0; 2; 1]]%nat i = Ok xs /\ Forall2 (fun c x => in_cell (fst c) (snd c) x) [(4, 1); (3, 2)]%nat xs).
Proof.
  destruct (C42_equidistributed [mkcoord [0; 1]%nat 2 1; mkcoord [0; 2; 1]%nat 1 2] 0) as (i & (Hi & xs & E & H2) & Hu).
  - repeat constructor; cbn; try lia. 
  - repeat constructor.
  - exists i. split.
    + split; [exact Hi|]. exists xs. split; [exact E|]. inversion H2 as [|? x ? l H3 H4]; subst. inversion H4 as [|? x' ? l' H5 H6]; subst. inversion H6; subst. repeat constructor; assumption || apply H3 || apply H5.
    + intros i' Hi' (ys & E' & H'). apply Hu; [exact Hi'|]. exists ys. split; [exact E'|]. inversion H' as [|? x ? l H3 H4]; subst. inversion H4 as [|? x' ? l' H5 H6]; subst. inversion H6; subst. repeat constructor; apply H3 || apply H5.
Qed.

(** C43. The primes returned are the first ones, in order. *)
Lemma sorted_firstn {l : list nat} n : StronglySorted lt l -> StronglySorted lt (firstn n l).
Proof.
  revert n. induction l as [|x l IH]; intros [|n] H; cbn; try constructor; inversion H as [|? ? H1 H2]; subst; [now apply IH|].
  apply Forall_forall. intros y Hy. rewrite Forall_forall in H2. apply H2. rewrite <- (firstn_skipn n l). apply in_or_app. now left.
Qed.
Lemma firstn_below {l : list nat} n p q : StronglySorted lt l -> In p l -> ~ In p (firstn n l) -> In q (firstn n l) -> (q < p)%nat.
Proof.
  intros Hs Hp Hn Hq. rewrite <- (firstn_skipn n l) in Hp, Hs. apply in_app_or in Hp as [Hp|Hp]; [contradiction|].
  clear Hn. induction (firstn n l) as [|x l' IH]; [destruct Hq|]. cbn in Hs. inversion Hs as [|? ? H1 H2]; subst. destruct Hq as [->|Hq]; [|auto]. rewrite Forall_forall in H2. apply H2. apply in_or_app. now right.
Qed.
Definition first_primes (l : list nat) : Prop :=
  StronglySorted lt l /\ Forall prime l /\ forall p, prime p -> In p l \/ forall q, In q l -> (q < p)%nat.
Lemma small_primes : first_primes [2; 3; 5; 7; 11]%nat.
Proof.
  destruct (sieve_spec 12 ltac:(lia)) as (t & E & Hl & Ht). vm_compute in E. injection E as <-.
  assert (Hprime : forall p, (p < 12)%nat -> prime p -> In p [2; 3; 5; 7; 11]%nat).
  { intros p Hlt Hp. destruct (nth_error [false; false; true; true; false; true; false; true; false; false; false; true] p) as [b|] eqn:Eb; [|apply nth_error_None in Eb; cbn in Eb; lia].
    pose proof (Ht p b Eb) as Hb. assert (b = true) as -> by now apply Hb. do 12 (destruct p as [|p]; [cbn in Eb; try discriminate; cbn; tauto|]). lia. }
  split; [repeat constructor|]. split.
  - repeat (apply Forall_cons; [match goal with |- prime ?n => now apply (Ht n true eq_refl) end|]). constructor.
  - intros p Hp. destruct (le_lt_dec 12 p) as [H|H]; [|left; now apply Hprime]. right. intros q Hq. cbn in Hq. lia.
Qed.
Theorem C43_first (size : nat -> nat) (num : nat) (l : list nat) : (4 <= size num)%nat -> get_first_primes size num = Ok l ->
  length l = num /\ first_primes l.
Proof.
  intros Hsize E. unfold get_first_primes in E. destruct (Nat.ltb_spec num 6) as [Hn|Hn].
  - injection E as <-. split; [rewrite firstn_length; cbn; lia|]. destruct small_primes as (H1 & H2 & H3). split; [now apply sorted_firstn|]. split.
    + apply Forall_forall. intros x Hx. rewrite Forall_forall in H2. apply H2. rewrite <- (firstn_skipn num). apply in_or_app. now left.
    + intros p Hp. destruct (in_dec Nat.eq_dec p (firstn num [2; 3; 5; 7; 11]%nat)) as [H|H]; [now left|right]. intros q Hq. destruct (H3 p Hp) as [Hin|Hall].
      * eapply firstn_below; eassumption.
      * apply Hall. rewrite <- (firstn_skipn num). apply in_or_app. now left.
  - destruct (sieve_spec (size num) Hsize) as (t & Et & Hl & Ht). rewrite Et in E. cbn [bind] in E. destruct (Nat.ltb_spec (length (where_true t)) num) as [|Hlen]; [discriminate|]. injection E as <-.
    destruct (where_true_spec t 0) as (H1 & H2). fold (where_true t) in H1, H2.
    assert (H2' : forall x, In x (where_true t) <-> prime x /\ (x < size num)%nat).
    { intros x. rewrite H2, Nat.sub_0_r. split.
      - intros (_ & H). split; [now apply (Ht x true H)|]. rewrite <- Hl. apply nth_error_Some. congruence.
      - intros (Hp & Hlt). split; [lia|]. destruct (nth_error t x) as [b|] eqn:Eb; [|apply nth_error_None in Eb; lia]. f_equal. now apply (Ht x b Eb). }
    split; [rewrite firstn_length; lia|]. split; [now apply sorted_firstn|]. split.
    + apply Forall_forall. intros x Hx. apply H2'. rewrite <- (firstn_skipn num). apply in_or_app. now left.
    + intros p Hp. destruct (in_dec Nat.eq_dec p (firstn num (where_true t))) as [H|H]; [now left|right]. intros q Hq. destruct (le_lt_dec (size num) p) as [Hge|Hlt].
      * assert (Hq' : In q (where_true t)) by (rewrite <- (firstn_skipn num); apply in_or_app; now left). apply H2' in Hq'. lia.
      * eapply firstn_below; [exact H1| |exact H|exact Hq]. now apply H2'.
Qed.
(** They are returned when there are enough primes below the size of the table, otherwise an error is raised. *)
Theorem C43_enough (size : nat -> nat) (num : nat) : (4 <= size num)%nat -> (6 <= num)%nat ->
  (forall ps, NoDup ps -> Forall (fun p => prime p /\ (p < size num)%nat) ps -> (length ps < num)%nat) /\ get_first_primes size num = Err RuntimeError \/
  (exists ps, NoDup ps /\ Forall (fun p => prime p /\ (p < size num)%nat) ps /\ (num <= length ps)%nat) /\ exists l, get_first_primes size num = Ok l.
Proof.
  intros Hsize Hn. unfold get_first_primes. destruct (Nat.ltb_spec num 6); [lia|]. destruct (sieve_spec (size num) Hsize) as (t & Et & Hl & Ht). rewrite Et. cbn [bind].
  destruct (where_true_spec t 0) as (H1 & H2). fold (where_true t) in H1, H2.
  assert (H2' : forall x, In x (where_true t) <-> prime x /\ (x < size num)%nat).
  { intros x. rewrite H2, Nat.sub_0_r. split.
    - intros (_ & H'). split; [now apply (Ht x true H')|]. rewrite <- Hl. apply nth_error_Some. congruence.
    - intros (Hp & Hlt). split; [lia|]. destruct (nth_error t x) as [b|] eqn:Eb; [|apply nth_error_None in Eb; lia]. f_equal. now apply (Ht x b Eb). }
  destruct (Nat.ltb_spec (length (where_true t)) num) as [Hlt|Hge].
  - left. split; [|reflexivity]. intros ps Hnd Hps. apply Nat.le_lt_trans with (length (where_true t)); [|exact Hlt]. apply NoDup_incl_length; [exact Hnd|]. intros p Hp. apply H2'. rewrite Forall_forall in Hps. now apply Hps.
  - right. split; [|eauto]. exists (where_true t). split; [|split; [apply Forall_forall; intros x Hx; now apply H2'|exact Hge]].
    clear - H1. induction H1 as [|x l H1 IH H2]; constructor; [|exact IH]. intros Hin. rewrite Forall_forall in H2. apply H2 in Hin. lia.
Qed.
Example C43_example : get_first_primes (fun _ => 15%nat) 6 = Ok [2; 3; 5; 7; 11; 13]%nat.
Proof. reflexivity. Qed.

(** C44. Rescaling. *)
Definition coord (k : nat) (p : list Q) : Q := nth k p 0.
Lemma qmin_le_l a b : qmin a b <= a.
Proof. unfold qmin. destruct (qlt b a) eqn:E; [apply qlt_iff in E; lra|lra]. Qed.
Lemma qmin_le_r a b : qmin a b <= b.
Proof. unfold qmin. destruct (qlt b a) eqn:E; [lra|]. assert (~ b < a) by (rewrite <- qlt_iff; congruence). lra. Qed.
Lemma qmin_cases a b : qmin a b = a \/ qmin a b = b.
Proof. unfold qmin. destruct (qlt b a); auto. Qed.
Lemma qmax_ge_l a b : a <= qmax a b.
Proof. unfold qmax. destruct (qlt a b) eqn:E; [apply qlt_iff in E; lra|lra]. Qed.
Lemma qmax_ge_r a b : b <= qmax a b.
Proof. unfold qmax. destruct (qlt a b) eqn:E; [lra|]. assert (~ a < b) by (rewrite <- qlt_iff; congruence). lra. Qed.
Lemma qmax_cases a b : qmax a b = a \/ qmax a b = b.
Proof. unfold qmax. destruct (qlt a b); auto. Qed.
Lemma fold_min l : forall x, (forall y, In y (x :: l) -> fold_left qmin l x <= y) /\ In (fold_left qmin l x) (x :: l).
Proof.
  induction l as [|a l IH]; intros x; cbn [fold_left]; [split; [intros y [->|[]]; lra|now left]|]. destruct (IH (qmin x a)) as (H1 & H2). split.
  - intros y Hy. assert (Hm : fold_left qmin l (qmin x a) <= qmin x a) by (apply H1; now left). pose proof (qmin_le_l x a). pose proof (qmin_le_r x a). destruct Hy as [<-|[<-|Hy]]; [lra|lra|]. apply H1. now right.
  - destruct H2 as [H2|H2]; [|right; now right]. rewrite <- H2. destruct (qmin_cases x a) as [->| ->]; [now left|right; now left].
Qed.
Lemma fold_max l : forall x, (forall y, In y (x :: l) -> y <= fold_left qmax l x) /\ In (fold_left qmax l x) (x :: l).
Proof.
  induction l as [|a l IH]; intros x; cbn [fold_left]; [split; [intros y [->|[]]; lra|now left]|]. destruct (IH (qmax x a)) as (H1 & H2). split.
  - intros y Hy. assert (Hm : qmax x a <= fold_left qmax l (qmax x a)) by (apply H1; now left). pose proof (qmax_ge_l x a). pose proof (qmax_ge_r x a). destruct Hy as [<-|[<-|Hy]]; [lra|lra|]. apply H1. now right.
  - destruct H2 as [H2|H2]; [|right; now right]. rewrite <- H2. destruct (qmax_cases x a) as [->| ->]; [now left|right; now left].
Qed.
Lemma fold_map2 (f : Q -> Q -> Q) points d : Forall (fun q => length q = d) points -> forall p, length p = d ->
  length (fold_left (map2 f) points p) = d /\ forall k, (k < d)%nat -> coord k (fold_left (map2 f) points p) = fold_left f (map (coord k) points) (coord k p).
Proof.
  assert (Hm : forall a b, length a = d -> length b = d -> length (map2 f a b) = d /\ forall k, (k < d)%nat -> coord k (map2 f a b) = f (coord k a) (coord k b)).
  { clear. revert d. intros d a. revert d. induction a as [|x a IH]; intros d [|y b] Ha Hb; cbn in *; subst; try discriminate; [split; [reflexivity|intros; lia]|].
    destruct (IH (length a) b eq_refl ltac:(lia)) as (H1 & H2). split; [cbn; lia|]. intros [|k] Hk; [reflexivity|]. apply H2. lia. }
  induction 1 as [|q points Hq H IH]; intros p Hp; cbn [fold_left map]; [auto|]. destruct (Hm p q Hp Hq) as (H1 & H2). destruct (IH _ H1) as (H3 & H4). split; [exact H3|]. intros k Hk. rewrite H4, H2 by exact Hk. reflexivity.
Qed.
Section Rescaling.
Variables (d : nat) (points : list (list Q)).
Hypothesis Hne : points <> [].
Hypothesis Hd : Forall (fun p => length p = d) points.
Lemma rescaler_fields r : new_rescaler points = Ok r -> length (mins r) = d /\ length (maxs r) = d /\ (0 < epsilon r) /\ epsilon r <= 1 # 1000000000000000 /\
  forall k, (k < d)%nat -> epsilon r <= coord k (mins r) /\ epsilon r <= 1 - coord k (maxs r) /\
    (forall p, In p points -> coord k (mins r) <= coord k p /\ coord k p <= coord k (maxs r)) /\
    (exists p, In p points /\ coord k p = coord k (mins r)) /\ (exists p, In p points /\ coord k p = coord k (maxs r)).
Proof.
  unfold new_rescaler. destruct points as [|p0 ps]; [congruence|]. inversion Hd as [|? ? Hp0 Hps]; subst. set (mi := fold_left (map2 qmin) ps p0). set (ma := fold_left (map2 qmax) ps p0).
  destruct (fold_map2 qmin ps (length p0) Hps p0 eq_refl) as (L1 & C1). destruct (fold_map2 qmax ps (length p0) Hps p0 eq_refl) as (L2 & C2). fold mi in L1, C1. fold ma in L2, C2.
  destruct (qlt 0 _) eqn:E; [|discriminate]. intros Er. injection Er as <-. cbn [mins maxs epsilon]. apply qlt_iff in E. unfold qmin_list in *.
  destruct (fold_min (mi ++ map (fun s => 1 - s) ma) (1 # 1000000000000000)) as (M1 & _). set (e := fold_left qmin _ _) in *.
  split; [exact L1|]. split; [exact L2|]. split; [exact E|]. split; [apply M1; now left|]. intros k Hk.
  split; [apply M1; right; apply in_or_app; left; apply nth_In; lia|]. split.
  { apply M1. right. apply in_or_app. right. apply in_map_iff. exists (coord k ma). split; [reflexivity|]. apply nth_In. lia. }
  rewrite C1, C2 by exact Hk. destruct (fold_min (map (coord k) ps) (coord k p0)) as (F1 & F2). destruct (fold_max (map (coord k) ps) (coord k p0)) as (G1 & G2).
  assert (Hin : forall p, In p (p0 :: ps) -> In (coord k p) (coord k p0 :: map (coord k) ps)) by (intros p [->|Hp]; [now left|right; now apply in_map]).
  assert (Hback : forall x, In x (coord k p0 :: map (coord k) ps) -> exists p, In p (p0 :: ps) /\ coord k p = x).
  { intros x [<-|Hx]; [exists p0; split; [now left|reflexivity]|]. apply in_map_iff in Hx as (p & <- & Hp). exists p. split; [now right|reflexivity]. }
  split; [intros p Hp; split; [apply F1, Hin, Hp|apply G1, Hin, Hp]|]. split; apply Hback; assumption.
Qed.
Lemma rescale_nth r p k : length (mins r) = d -> length (maxs r) = d -> length p = d -> (k < d)%nat ->
  nth_error (rescale r p) k = Some (if Qeq_bool (coord k (maxs r) - coord k (mins r)) 0 then None
    else Some (epsilon r + (1 - 2 * epsilon r) / (coord k (maxs r) - coord k (mins r)) * (coord k p - coord k (mins r)))).
Proof.
  intros H1 H2 H3 Hk. unfold rescale. set (f := fun (q : Q * Q) x => _).
  assert (Hc : nth_error (combine (mins r) (maxs r)) k = Some (coord k (mins r), coord k (maxs r))).
  { unfold coord. rewrite <- combine_nth by congruence. apply nth_error_nth'. rewrite combine_length. lia. }
  assert (Hp : nth_error p k = Some (coord k p)) by (apply nth_error_nth'; lia). rewrite (map2_nth f _ _ _ _ _ Hc Hp). unfold f. reflexivity.
Qed.
(** Points of the open cube: accepted, with a positive margin of at most 1e-15; otherwise refused. *)
Theorem C44_accepted : (0 < d)%nat ->
  (Forall (Forall (fun x => 0 < x /\ x < 1)) points -> exists r, new_rescaler points = Ok r /\ 0 < epsilon r /\ epsilon r <= 1 # 1000000000000000) /\
  (~ Forall (Forall (fun x => 0 < x /\ x < 1)) points -> new_rescaler points = Err AssertionError).
Proof.
  intros Hd0. split.
  - intros Hopen. assert (H : exists r, new_rescaler points = Ok r).
    { unfold new_rescaler. destruct points as [|p0 ps]; [congruence|]. inversion Hd as [|? ? Hp0 Hps]; subst. set (mi := fold_left (map2 qmin) ps p0). set (ma := fold_left (map2 qmax) ps p0).
      destruct (fold_map2 qmin ps (length p0) Hps p0 eq_refl) as (L1 & C1). destruct (fold_map2 qmax ps (length p0) Hps p0 eq_refl) as (L2 & C2). fold mi in L1, C1. fold ma in L2, C2.
      assert (Hcoord : forall p k, In p (p0 :: ps) -> (k < length p0)%nat -> 0 < coord k p /\ coord k p < 1).
      { intros p k Hp Hk. rewrite Forall_forall in Hopen. specialize (Hopen p Hp). rewrite Forall_forall in Hopen. apply Hopen. apply nth_In. rewrite Forall_forall in Hd. rewrite (Hd p Hp). exact Hk. }
      assert (Hall : forall k x, (k < length p0)%nat -> In x (coord k p0 :: map (coord k) ps) -> 0 < x /\ x < 1).
      { intros k x Hk [<-|Hx]; [apply Hcoord; [now left|exact Hk]|]. apply in_map_iff in Hx as (p & <- & Hp). apply Hcoord; [now right|exact Hk]. }
      assert (E : qlt 0 (qmin_list (1 # 1000000000000000) (mi ++ map (fun s => 1 - s) ma)) = true).
      { apply qlt_iff. unfold qmin_list. destruct (fold_min (mi ++ map (fun s => 1 - s) ma) (1 # 1000000000000000)) as (_ & [Hin|Hin]); [rewrite <- Hin; reflexivity|].
        apply in_app_or in Hin as [Hin|Hin].
        - apply (In_nth _ _ 0) in Hin as (k & Hk & Ek). rewrite <- Ek. fold (coord k mi). rewrite C1 by lia. destruct (fold_min (map (coord k) ps) (coord k p0)) as (_ & F). apply Hall in F; [apply F|lia].
        - apply in_map_iff in Hin as (s & Es & Hin). rewrite <- Es. apply (In_nth _ _ 0) in Hin as (k & Hk & Ek). rewrite <- Ek. fold (coord k ma). rewrite C2 by lia. destruct (fold_max (map (coord k) ps) (coord k p0)) as (_ & F). apply Hall in F; [lra|lia]. }
      rewrite E. eauto. }
    destruct H as (r & E). exists r. destruct (rescaler_fields r E) as (_ & _ & H1 & H2 & _). auto.
  - intros Hno. destruct (new_rescaler points) as [r|e] eqn:E.
    + exfalso. apply Hno. destruct (rescaler_fields r E) as (_ & _ & H1 & _ & H3). apply Forall_forall. intros p Hp. apply Forall_forall. intros x Hx.
      apply (In_nth _ _ 0) in Hx as (k & Hk & <-). rewrite Forall_forall in Hd. rewrite (Hd p Hp) in Hk. destruct (H3 k Hk) as (E1 & E2 & E3 & _). specialize (E3 p Hp). unfold coord in *. lra.
    + unfold new_rescaler in E. destruct points; [congruence|]. destruct (qlt 0 _); congruence.
Qed.
(** A coordinate where the points differ: they are mapped in [eps, 1 - eps], in the same order, the least to eps and
    the largest to 1 - eps. *)
Theorem C44_rescaled (r : rescaler) (k : nat) (p p' : list Q) : new_rescaler points = Ok r -> (k < d)%nat ->
  In p points -> In p' points -> coord k p < coord k p' ->
  let value q y := nth_error (rescale r q) k = Some (Some y) in
  (forall q, In q points -> exists y, value q y /\ epsilon r <= y /\ y <= 1 - epsilon r) /\
  (forall q q' y y', In q points -> In q' points -> value q y -> value q' y' -> coord k q < coord k q' -> y < y') /\
  (exists q y, In q points /\ value q y /\ y == epsilon r) /\ (exists q y, In q points /\ value q y /\ y == 1 - epsilon r).
Proof.
  intros E Hk Hp Hp' Hlt value. destruct (rescaler_fields r E) as (L1 & L2 & He & He' & Hf). destruct (Hf k Hk) as (E1 & E2 & Hb & (pm & Hpm & Em) & (pM & HpM & EM)).
  set (mi := coord k (mins r)) in *. set (ma := coord k (maxs r)) in *. set (e := epsilon r) in *. assert (Hspan : 0 < ma - mi) by (pose proof (Hb p Hp); pose proof (Hb p' Hp'); lra).
  assert (He2 : 0 < 1 - 2 * e) by lra.
  assert (Hv : forall q, In q points -> nth_error (rescale r q) k = Some (Some (e + (1 - 2 * e) / (ma - mi) * (coord k q - mi)))).
  { intros q Hq. rewrite rescale_nth; [|exact L1|exact L2|rewrite Forall_forall in Hd; now apply Hd|exact Hk]. fold mi ma e. destruct (Qeq_bool (ma - mi) 0) eqn:Eq; [apply Qeq_bool_iff in Eq; lra|reflexivity]. }
  set (c := (1 - 2 * e) / (ma - mi)) in *. assert (Hc : 0 < c) by (apply Qlt_shift_div_l; lra). assert (Hspan' : c * (ma - mi) == 1 - 2 * e) by (unfold c; field; lra).
  unfold value. split; [|split; [|split]].
  - intros q Hq. eexists. split; [now apply Hv|]. destruct (Hb q Hq). split; nra.
  - intros q q' y y' Hq Hq' Hy Hy' Hl. rewrite Hv in Hy, Hy' by assumption. injection Hy as <-. injection Hy' as <-. nra.
  - exists pm. eexists. split; [exact Hpm|]. split; [now apply Hv|]. rewrite Em. ring.
  - exists pM. eexists. split; [exact HpM|]. split; [now apply Hv|]. rewrite EM, Hspan'. ring.
Qed.
(** Finding: a coordinate where all points agree is divided by zero (in particular with a single point). *)
Theorem C44_constant_refuted (r : rescaler) (k : nat) (p : list Q) : new_rescaler points = Ok r -> (k < d)%nat -> In p points ->
  (forall q, In q points -> coord k q == coord k p) -> nth_error (rescale r p) k = Some None.
Proof.
  intros E Hk Hp Hall. destruct (rescaler_fields r E) as (L1 & L2 & _ & _ & Hf). destruct (Hf k Hk) as (_ & _ & _ & (pm & Hpm & Em) & (pM & HpM & EM)).
  rewrite rescale_nth; [|exact L1|exact L2|rewrite Forall_forall in Hd; now apply Hd|exact Hk]. rewrite <- Em, <- EM. apply Hall in Hpm, HpM.
  destruct (Qeq_bool _ 0) eqn:Eq; [reflexivity|]. apply Qeq_bool_neq in Eq. exfalso. apply Eq. lra.
Qed.
End Rescaling.
Example C44_example : exists r, new_rescaler [[1 # 4; 1 # 2]; [3 # 4; 1 # 2]] = Ok r /\ coord 0 [1 # 4; 1 # 2] < coord 0 [3 # 4; 1 # 2] /\
  nth_error (rescale r [1 # 4; 1 # 2]) 1 = Some None.
Proof. eexists. split; [reflexivity|]. split; reflexivity. Qed.
Print Assumptions C41_cells.
Print Assumptions C42_equidistributed.
Print Assumptions C43_first.
Print Assumptions C44_rescaled.
