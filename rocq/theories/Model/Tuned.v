(** Model of the choice of an optimizer by the families NgIoh, NgDS and CSEC, and by NgIohTuned
    (nevergrad/optimization/optimizerlib.py:4915-5347, 5556-7366, 7398-7660).  The optimizers which they choose, and their
    creation, are in Model/Select.v.  What [np.random] gives for the scales of restarts plays no role in the choice. *)
From Coq Require Import List Arith ZArith QArith Bool.
From Verif.Model Require Import Prelude MultiValue Chain Portfolio Select.
Import ListNotations.
Open Scope nat_scope.

(** [NgIoh12b] to [NgIoh15b] (:7399-7424) set an attribute which is not read; [NgIohTuned] (:7656-7658) is [CSEC11]. *)
Inductive tuned : Type :=
| NgIoh1 (* NgIoh *) | NgIoh2 | NgIoh3 | NgIoh4 | NgIohRW2 | NgIoh5 | NgIoh6 | NgIoh7 | NgIoh8 | NgIoh9 | NgIoh10 | NgIoh11
| NgIoh12 | NgIoh13 | NgIoh14 | NgIoh15 | NgIoh16 | NgIoh17 | NgIoh18 | NgIoh19 | NgIoh20 | NgIoh21
| NgDS11 | NgDS | NgDS2 | NGDSRW | CSEC | CSEC10 | CSEC11.

(** What they look at besides [info]: whether the parametrization is an array, and its attributes (core.py:52-56) *)
Record tinfo : Type := TInfo {
  t_info : info; t_array : bool; t_real : bool (* real_world *); t_hp : bool (* hptuning *); t_neural : bool;
  t_constraints : bool (* has_constraints *); t_enforce : bool (* enforce_determinism *) }.
Definition tinner (b : option nat) (w : nat) (t : tinfo) : tinfo :=
  TInfo (inner b w (t_info t)) (t_array t) (t_real t) (t_hp t) (t_neural t) (t_constraints t) (t_enforce t).
Definition set_budget (b : option nat) (i : info) : info :=
  Info b (i_workers i) (i_dim i) (i_det_params i) (i_det i) (i_continuous i) (i_disc i) (i_arity i) (i_metrizable i) (i_objectives i) (i_bounded i).

(** Registered optimizers; their line in optimizerlib.py, and that of their flag [no_parallelization] *)
Definition meta_ds : opt := Meta false (Some (Leaf ADSproba)).                            (* :2291 *)
Definition multi_cma : opt := Mix (repeat (Leaf ACMAinit) 3) (Some (1 # 10)%Q).           (* :2107 *)
Definition multi_ds : opt := Mix (repeat (Leaf ADSproba) 3) (Some (1 # 10)%Q).            (* :2110 *)
Definition cobyla_sqp (np : bool) (ps : list part) (o : opt) : opt := Chain np ps [Leaf ACobyla; o; Leaf ASQP].
Definition carola4 : opt := cobyla_sqp true [Root; Half] meta_model.                      (* :3471, 3487 *)
Definition carola5 : opt := cobyla_sqp true [Root; Most] meta_model.                      (* :3473, 3490 *)
Definition carola6 : opt := cobyla_sqp true [Tenth; Most] meta_model.                     (* :3475, 3491 *)
Definition carola8 : opt := cobyla_sqp true [Tenth; Most] (Leaf ACmaFmin2).               (* :3495, 3504 *)
Definition carola9 : opt := cobyla_sqp true [Tenth; Most] (Meta false (Some (Leaf ACmaFmin2))).  (* :3497, 3503 *)
Definition ds2 : opt := cobyla_sqp true [Third; Third] meta_ds.                           (* :3470, 3486 *)
Definition ds4 : opt := cobyla_sqp true [Root; Half] meta_ds.                             (* :3472, 3488 *)
Definition ds5 : opt := cobyla_sqp true [Root; Most] meta_ds.                             (* :3474, 3489 *)
Definition ds6 : opt := cobyla_sqp true [Tenth; Most] meta_ds.                            (* :3476, 3477 *)
Definition ds8 : opt := cobyla_sqp true [Tenth; Most] (Leaf ADSproba).                    (* :3496, 3505 *)
Definition ds9 : opt := cobyla_sqp false [Tenth; Most] (Meta false (Some (Leaf ADSproba))).  (* :3500 *)
Definition chain_meta_sqp : opt := Chain true [Half] [meta_model; Leaf ASQP].             (* :3549, 3553 *)
Definition chain_meta_ds_sqp : opt := Chain true [Half] [meta_ds; Leaf ASQP].             (* :3550, 3554 *)
Definition fcarola6 : opt := Chain true [Tenth; Most] [Ng V39; Ng V39; Leaf ARBFGS].      (* :7385-7386 *)
Definition carola14 : opt := Chain true [Most] [multi_cma; Leaf ARBFGS].                  (* :7389-7390 *)
Definition ds14 : opt := Chain true [Most] [multi_ds; Leaf ARBFGS].                       (* :7391-7392 *)
Definition noisy_rl2 : opt :=                                                             (* :7370, 7375 *)
  Chain false [Half] [Mix [Leaf ADiagonalCMA; Leaf APSO; genetic_de] None; Leaf (AOptimistic true)].
Definition ng_ln : opt := Chain false [Tenth] [Leaf ALognormal; Ng V39].                  (* :7428 *)
(** the three (1+1) for arrays which are not continuous, e.g. :5562-5569 *)
Definition smooth_mix : opt := Mix [Leaf ASmoothLengler; Leaf ASmoothRecombining; Leaf ALengler] (Some (4 # 10)%Q).
(** [ParametrizedMetaModel] of [CmaFmin2] or of [DSproba], flagged *)
Definition meta_ds_flagged : opt := Meta true (Some (Leaf ADSproba)).                     (* :6514-6515 *)

(** The names which differ between NgIoh11 and NgDS11, NgDS *)
Record family : Type := Family {
  f_2 : opt; f_3 : opt; f_7 : opt; f_14 : opt; f_29 : opt; f_59 : opt; f_wide2 : opt; f_wide : opt;
  f_large : opt; f_chain : opt; f_multi : opt; f_last : opt }.
Definition carolas : family :=   (* :5711-5767, :6595-6658 *)
  Family carola14 carola4 carola5 carola9 carola8 carola9 fcarola6 carola6 meta_fmin2 chain_meta_sqp multi_cma carola2.
Definition mixed : family :=     (* NgDS11, :5624-5680 *)
  Family ds14 ds4 ds5 ds9 ds8 ds9 ds6 ds6 meta_fmin2 chain_meta_sqp multi_cma carola2.
Definition dss : family :=       (* NgDS, NgDS2, :6494-6554, :6700-6760 *)
  Family ds14 ds4 ds5 ds9 ds8 ds9 ds6 ds6 meta_ds_flagged chain_meta_ds_sqp multi_ds ds2.

(** e.g. :5711-5722 *)
Definition by_dimension (f : family) (d b : nat) : option opt :=
  if (300 * d <? b) && (b <? 3000 * d) then
    if d =? 2 then Some (f_2 f) else if d <? 4 then Some (f_3 f) else if d <? 8 then Some (f_7 f) else
    if d <? 15 then Some (f_14 f) else if d <? 30 then Some (f_29 f) else if d <? 60 then Some (f_59 f) else None
  else None.
(** e.g. :5724-5727 *)
Definition wide (f : family) (d b : nat) : option opt :=
  if (300 * d <? b) && (b <? 3000 * d) && (d =? 2) then Some (f_wide2 f) else
  if (300 * d <? b) && (b <? 3000 * d) then Some (f_wide f) else None.
(** e.g. :5728-5735 *)
Definition large (f : family) (d b : nat) : option opt :=
  if 3000 * d <? b then Some (f_large f) else
  if (300 * d <? b) && (b <? 3000 * d) && (d <=? 3) then Some (f_chain f) else None.
(** e.g. :5736-5743 *)
Definition small (f : family) (d b : nat) : option opt :=
  if (b <? 30 * d) && (d <? 50) && (30 <? d) then Some (f_chain f) else
  if (30 * d <=? b) && (b <? 300 * d) && (d =? 2) then Some (Leaf ASbplx) else
  if (30 * d <=? b) && (b <? 300 * d) && (d <? 15) then Some (f_chain f) else
  if (300 * d <=? b) && (b <? 3000 * d) && (d <? 30) then Some (f_multi f) else None.
Definition first (a b : option opt) : option opt := match a with Some _ => a | None => b end.
(** :7230-7236 [NgIoh9] *)
Definition wide9 (d b : nat) : option opt :=
  if (300 * d <? b) && (b <? 3000 * d) && (d =? 2) then Some meta_fmin2 else
  if (300 * d <? b) && (d =? 3) then Some chain_meta_sqp else None.

(** The tests on the budget of a continuous problem without noise; [alone]: with one worker *)
Definition quiet (i : info) : bool := i_continuous i && negb (has_noise i).
Definition alone (i : info) : bool := quiet i && (i_workers i =? 1).
Definition when (c : bool) (i : info) (f : nat -> nat -> option opt) : option opt :=
  if c then match i_budget i with Some b => f (i_dim i) b | None => None end else None.
(** e.g. :5745-5774 and :5232-5256: the last part of each choice; [cma60]: with the case of large dimensions which are
    not metrizable *)
Definition last_part (cma60 : bool) (two : opt) (i : info) : opt :=
  if alone i && with_budget i (fun b => (b <? 1000 * i_dim i) && (20 * i_dim i <? b)) && (1 <? i_dim i) && (i_dim i <? 100) then two else
  if alone i && with_budget i (fun b => 1000 * i_dim i <=? b) && (1 <? i_dim i) && (i_dim i <? 50) then two else
  if has_noise i && (i_disc i || negb (i_metrizable i)) then Leaf (AOptimistic true) else
  if cma60 && (60 <=? i_dim i) && negb (i_metrizable i) then Ng VMetaCMA else
  Ng VBase.
Definition otherwise (o : option opt) (d : opt) : opt := match o with Some o => o | None => d end.
(** e.g. :5700-5709: arrays which are not continuous *)
Definition discrete_array (t : tinfo) : bool := t_array t && negb (i_continuous (t_info t)) && negb (has_noise (t_info t)).
Definition arrays (t : tinfo) (o : opt) : opt := if discrete_array t then smooth_mix else o.

(** :5219-5256 [NgIoh4]; :5268-5306 [NgIoh5]; :5309-5346 [NgIoh6]; :5557-5602 [NgIoh7] *)
Definition pick_ioh4 (i : info) : opt := last_part true carola2 i.
Definition pick_arity (o : opt) (i : info) : opt := if negb (has_noise i) && (0 <? arity i)%Z then o else last_part true carola2 i.
Definition pick_ioh7 (t : tinfo) : opt := arrays t (last_part true carola2 (t_info t)).
(** :7301-7366 [NgIoh8]; :7219-7298 [NgIoh9]; :7139-7216 [NgIoh10] *)
Definition pick_ioh8 (t : tinfo) : opt :=
  arrays t (otherwise (when (alone (t_info t)) (t_info t) (small carolas)) (last_part true carola2 (t_info t))).
Definition pick_ioh9 (t : tinfo) : opt :=
  arrays t (otherwise (when (alone (t_info t)) (t_info t) (fun d b => first (wide9 d b) (first (large carolas d b) (small carolas d b))))
                      (last_part false carola2 (t_info t))).
Definition pick_ioh10 (t : tinfo) : opt :=
  arrays t (otherwise (when (alone (t_info t)) (t_info t) (fun d b => first (wide carolas d b) (first (large carolas d b) (small carolas d b))))
                      (last_part false carola2 (t_info t))).
(** :5692-5775 [NgIoh11], :5605-5688 [NgDS11], and the common end of the next ones *)
Definition pick_table (f : family) (t : tinfo) : opt :=
  arrays t (otherwise (when (alone (t_info t)) (t_info t)
                        (fun d b => first (by_dimension f d b) (first (wide f d b) (first (large f d b) (small f d b)))))
                      (last_part false (f_last f) (t_info t))).
(** with the choice made first for large budgets, of a continuous problem without noise (but after that of arrays) *)
Definition pick_large (big : nat -> nat -> option opt) (f : family) (t : tinfo) : opt :=
  arrays t (otherwise (when (quiet (t_info t)) (t_info t) big) (pick_table f t)).

(** The restarts for large budgets: num = budget // (1000 * dimension) *)
Definition if_restarts (nw d b : nat) (o : nat -> opt) : option opt :=
  let num := b / (1000 * d) in if (2000 * d <? b) && (nw <=? num) then Some (o num) else None.
(** [NgIoh11._select_optimizer_cls(self, budget)] *)
Definition ioh11_with (b : option nat) (t : tinfo) : opt :=
  pick_table carolas (TInfo (set_budget b (t_info t)) (t_array t) (t_real t) (t_hp t) (t_neural t) (t_constraints t) (t_enforce t)).
(** :5796-5822, :5920-5945 [NgIoh14], [NgIoh13] *)
Definition four_kinds (warmup : Q) (t : tinfo) (num : nat) : opt :=
  let same := Scaled (pick_table carolas t) in
  Mix (firstn num [same; fcarola6; chain_meta_sqp; Meta false (Some (Leaf ACmaFmin2))] ++ repeat same (num - 4)) (Some warmup).
(** :6043-6056, :6151-6166 [NgIoh15], [NgIoh12]; :6260-6276 [NgIoh16] *)
Definition copies (warmup : Q) (o : opt) (num : nat) : opt := Mix (repeat (Scaled o) num) (Some warmup).
(** :6370-6392 [NgIoh17]; :7017-7053 [NgIoh18], where the first is not rescaled *)
Definition in_turn (scaled_first : bool) (t : tinfo) (b num : nat) : opt :=
  let sub := ceil_div b num in
  let o := ioh11_with (Some sub) t in
  Chain false (repeat (Units sub) (num - 1)) ((if scaled_first then Scaled o else o) :: repeat (Scaled o) (num - 1)).

Section Pick.
  Variable cma_vars : nat -> nat.
  (** [exceeds_log n b]: n > np.log(3 + b) *)
  Variable exceeds_log : nat -> nat -> bool.

  (** :4915-5012 [NgIoh], :5015 [NgIoh2], :5117 [NgIoh3] *)
  Definition pick_ioh (c1 c2 : nat -> nat -> bool) (i : info) : result opt :=
    if i_continuous i && has_noise i then Ok noisy_mix else
    if alone i && with_budget i (fun b => (b <? 1000 * i_dim i) && (20 * i_dim i <? b) && c1 (i_dim i) b) && (1 <? i_dim i) then Ok carola2 else
    if alone i && with_budget i (c2 (i_dim i)) && (1 <? i_dim i) then Ok carola2 else
    pick39_bounded cma_vars (pick16 cma_vars i) i.

  (** :6571-6671 [NgIoh21] *)
  Definition pick_ioh21 (t : tinfo) : opt :=
    pick_large (fun d b => if 2000 * d <? b then Some (Meta false (Some (Leaf AVLPCMA))) else None) carolas t.
  (** :6470-6568 [NgDS], :6674-6774 [NgDS2] *)
  Definition pick_ds (t : tinfo) : opt :=
    pick_large (fun d b => if 2000 * d <? b then Some (Meta false (Some (Leaf AVLPCMA))) else None) dss t.
  Definition pick_ds2 (t : tinfo) : opt :=
    if with_budget (t_info t) (fun b => i_dim (t_info t) <? b) then pick_ioh21 t else pick_ds t.

  (** :6777-6787 [NGDSRW].  [own]: whether [self] is a [NGDSRW]; otherwise [super()] is a TypeError *)
  Definition pick_dsrw (own : bool) (t : tinfo) : result opt :=
    let i := t_info t in
    if quiet i && match i_budget i with Some b => 12 * i_dim i <=? b | None => true end then
      match i_budget i with
      | None => Err TypeError    (* None >= 12 * dimension *)
      | Some _ => if own then bind (pick39 cma_vars i) (fun o => Ok (Mix [genetic_de; Leaf APSO; o] (Some (33 # 100)%Q))) else Err TypeError
      end
    else if with_budget i (fun b => b <? i_dim i) then Ok (pick_ds2 t) else pick39 cma_vars i.

  (** :5259-5265 [NgIohRW2]; SQPCMA is the default portfolio (Props/NamedPortfolios.v, C95_named) *)
  Definition default_mix (budget : option nat) (nw : nat) : opt :=
    Mix (match budget with
         | None => [Ng VMetaCMA; Leaf ATwoPointsDE]
         | Some b => (if 12 * nw <=? b then [Ng VMetaCMA; Leaf ATwoPointsDE] else []) ++ [Leaf AScrHammersley]
         end) None.

  (** What is chosen: an optimizer of Model/Select.v, [NgDS3] (:7427), or the portfolio of [NgIohRW2] *)
  Inductive choice : Type := Plain (o : opt) | NgDS3 | RW2.
  Definition small_dim (d : nat) : bool := (1 <? d) && (d <? 50).
  (** :7434-7475 [CSEC] *)
  Definition pick_csec (t : tinfo) : result choice :=
    let i := t_info t in
    if alone i && with_budget i (fun b => 3000 * i_dim i <=? b) && small_dim (i_dim i) then Ok (Plain (pick_ioh21 t)) else
    if alone i && with_budget i (fun b => 30 * i_dim i <=? b) && small_dim (i_dim i) then Ok (Plain (pick_ioh4 i)) else
    if quiet i && with_budget i (fun b => (b <? i_workers i * i_workers i) && (30 * i_dim i <=? b)) && small_dim (i_dim i) then Ok NgDS3 else
    Ok (Plain (pick_ds2 t)).
  (** :7479-7575 [CSEC10], :7579-7653 [CSEC11]; [ratio]: 3000 or 300 *)
  Definition pick_csec1x (ratio : nat) (t : tinfo) : result choice :=
    let i := t_info t in
    let d := i_dim i in
    match i_budget i with
    | None => Err AssertionError
    | Some b =>
        if discrete_array t then Ok (Plain genetic_de) else
        if t_real t && negb (t_hp t) && negb (t_neural t) && negb (i_metrizable i) then Ok (Plain (pick_ds2 t)) else
        if t_constraints t then Ok (Plain ng_ln) else
        if (i_workers i =? 1) && t_real t && negb (t_hp t) && negb (t_neural t) && (b <? d) && quiet i then Ok (Plain (Leaf ADSproba)) else
        if (i_workers i * i_workers i <? 1 + d) && t_real t && negb (t_hp t) && negb (t_neural t) && (b <? 8 * d) && quiet i then Ok (Plain (Leaf ALengler)) else
        if t_real t && negb (t_hp t) && negb (t_neural t) && i_continuous i then bind (pick39 cma_vars i) (fun o => Ok (Plain o)) else
        if t_real t && t_neural t && negb (i_det i) && negb (t_enforce t) then Ok (Plain noisy_rl2) else
        if t_real t && t_neural t && (i_det i || t_enforce t) then Ok (Plain (Leaf ASQOPSO)) else
        if t_real t && negb (t_neural t) then bind (pick_dsrw false t) (fun o => Ok (Plain o)) else
        if alone i && (ratio * d <=? b) && small_dim d then Ok (Plain (pick_ioh21 t)) else
        if alone i && (30 * d <=? b) && small_dim d then Ok (Plain (pick_ioh4 i)) else
        if quiet i && exceeds_log (i_workers i) b && (30 * d <=? b) && small_dim d then Ok NgDS3 else
        Ok (Plain (pick_ds2 t))
    end.

  Definition tpick (v : tuned) (t : tinfo) : result choice :=
    let i := t_info t in
    let plain o := Ok (Plain o) in
    let restarts o := plain (pick_large (fun d b => if_restarts (i_workers i) d b (o b)) carolas t) in
    let meta d := Meta false (Some (Leaf (if 4 <? d then AVLPCMA else ALPCMA))) in
    match v with
    | NgIoh1 => bind (pick_ioh (fun _ _ => true) (fun d b => 10000 * d <? b) i) plain
    | NgIoh2 => bind (pick_ioh (fun d _ => d <? 200) (fun d b => (1000 * d <=? b) && (d <? 200)) i) plain
    | NgIoh3 => bind (pick_ioh (fun d _ => d <? 100) (fun d b => (1000 * d <=? b) && (d <? 50)) i) plain
    | NgIoh4 => plain (pick_ioh4 i)
    | NgIohRW2 =>
        if quiet i then
          match i_budget i with
          | None => Err TypeError
          | Some b => if 12 * i_dim i <=? b then Ok RW2 else plain (pick_ioh4 i)
          end
        else plain (pick_ioh4 i)
    | NgIoh5 => plain (pick_arity (Leaf ALengler) i)
    | NgIoh6 => plain (pick_arity (Leaf ARecombiningPortfolio) i)
    | NgIoh7 => plain (pick_ioh7 t) | NgIoh8 => plain (pick_ioh8 t) | NgIoh9 => plain (pick_ioh9 t) | NgIoh10 => plain (pick_ioh10 t)
    | NgIoh11 => plain (pick_table carolas t)
    | NgIoh12 => restarts (fun _ => copies 1 (pick_table carolas t))
    | NgIoh13 => restarts (fun _ => four_kinds 1 t)
    | NgIoh14 => restarts (fun _ => four_kinds (7 # 10) t)
    | NgIoh15 => restarts (fun _ => copies (7 # 10) (pick_table carolas t))
    | NgIoh16 => restarts (fun _ => copies 1 carola14)
    | NgIoh17 => restarts (fun b => in_turn true t b)
    | NgIoh18 => restarts (fun b => in_turn false t b)
    | NgIoh19 => plain (pick_large (fun d b => if 2000 * d <? b then Some (Leaf (if 4 <? d then AVLPCMA else ALPCMA)) else None) carolas t)
    | NgIoh20 => plain (pick_large (fun d b => if 2000 * d <? b then Some (meta d) else None) carolas t)
    | NgIoh21 => plain (pick_ioh21 t)
    | NgDS11 => plain (pick_table mixed t)
    | NgDS => plain (pick_ds t)
    | NgDS2 => plain (pick_ds2 t)
    | NGDSRW => bind (pick_dsrw true t) plain
    | CSEC => pick_csec t
    | CSEC10 => pick_csec1x 3000 t
    | CSEC11 => pick_csec1x 300 t
    end.

  (** The creation at the first [ask] (:3842-3848): the optimizers which do the work, with their numbers of workers.
      [NgDS3]: LognormalDiscreteOnePlusOne for a tenth of the budget, then NgDS2. *)
  Definition start (depth : nat) (v : tuned) (t : tinfo) : result (list (algo * nat)) :=
    let i := t_info t in
    let nw := i_workers i in
    bind (tpick v t) (fun c =>
    match c with
    | Plain o => create cma_vars depth o (inner (i_budget i) nw i)
    | NgDS3 =>
        match chain_budgets (i_budget i) nw [Tenth] with
        | [b1; b2] =>
            bind (create cma_vars depth (Leaf ALognormal) (inner b1 nw i)) (fun l1 =>
            let t2 := tinner b2 nw t in
            bind (create cma_vars depth (pick_ds2 t2) (inner b2 nw (t_info t2))) (fun l2 => Ok (l1 ++ l2)))
        | _ => Err AssertionError
        end
    | RW2 =>
        bind (portfolio_setup [false; false; false] (i_budget i) nw (Some (33 # 100)%Q)) (fun su =>
        match su_workers su with
        | [w1; w2; w3] =>
            zip_create (create cma_vars depth) [default_mix (su_sub_budget su) w1; Leaf AQODE; Leaf APSO]
              (map (fun w => inner (su_sub_budget su) w i) [w1; w2; w3])
        | _ => Err AssertionError
        end)
    end).

  (** base.py:175-188, :366-369: the first loss which is told gives the number of objectives; :4113-4118: the optimizers
      which derive from NGOpt8 (:4915, 5015, 5117, 6777, 7434) then replace what they chose by DE.  The others derive
      from NGOptBase (e.g. :5219, 5692, 7479, 7579).  What works after the first tell of [n] losses: *)
  Definition from_ngopt8 (v : tuned) : bool := match v with NgIoh1 | NgIoh2 | NgIoh3 | NGDSRW | CSEC => true | _ => false end.
  Definition after_tell (depth : nat) (v : tuned) (n : nat) (t : tinfo) : result (list (algo * nat)) :=
    let i := t_info t in
    bind (start depth v t) (fun l =>
    if from_ngopt8 v && (1 <? n) && (noise_from_params i || negb (has_noise i))
    then create cma_vars depth (Leaf ADE) (inner (i_budget i) (i_workers i) i) else Ok l).
End Pick.
