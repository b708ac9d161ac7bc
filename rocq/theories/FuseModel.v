(** Oversamplers that search for a whole data set: AMSCO, DSRBF and ADG.

    Numbers are exact rationals.  Decision trees, neurons, clusterings, mixtures and the
    solutions of linear systems are parameters. *)

From Coq Require Import List ZArith QArith Qabs Bool Arith Qround.
From Verif Require Import Np PyVal Float64 SimplexModel SamplerModel BaseModel UnderModel DangerModel ClusterOversModel CompModel NearModel LevelModel WrapModel DirModel EditModel RegionModel GraphModel MixModel SwarmModel.
Import ListNotations.
Open Scope nat_scope.

Section Samplers.

Variable volume : list row -> Q.
Variable nn : list row -> list row -> nat -> res (list (list nat)).

(** ** AMSCO *)

Record am_params := mk_am { am_n_pop : nat; am_n_iter : nat; am_omega : Q; am_r1 : Q; am_r2 : Q; am_ss : ss_params }.

(** The double of a proportion. *)
Variable to_f : Q -> f64.

(** fitness, _amsco.py:215-251, with determine_scores, 186-213: kappa and accuracy on the data given of trees trained on folds
    of minority and majority rows.  Both labels occur among the data given, so that kappa is a
    number. *)
Variable fitness : list row -> list row -> (Q * Q)%type.

(** np.prod of a score. *)
Definition joint (s : Q * Q) : Q := (fst s * snd s)%Q.

(** Particle, _amsco.py:36-45: a proportion and a number of neighbours. *)
Record settings := mk_settings { se_at : Q * Q; se_vel : Q * Q; se_best : Q * Q; se_score : Q * Q }.

(** init_pop_osmote, _amsco.py:298-312. *)
Definition os_init (d : draws) (i : nat) : res settings :=
  do k <- randint d i 1 7;
  let c := (dr_unif d i 0%nat / 2 + (1 # 2), inject_Z (Z.of_nat (3 + k)))%Q in
  Ok (mk_settings c (1 # 10, 1)%Q c (0, 0)%Q).

(** update_velocities_osmote and update_particles_osmote, _amsco.py:253-296, for one particle.
    The differences are taken from the velocity. *)
Definition os_move (p : am_params) (global : Q * Q) (s : settings) : settings :=
  let turn (v l g limit : Q) := clip (- (limit / 2)) (limit / 2) (v * am_omega p + am_r1 p * (l - v) + am_r2 p * (g - v)) in
  let v0 := turn (fst (se_vel s)) (fst (se_best s)) (fst global) 4%Q in
  let v1 := turn (snd (se_vel s)) (snd (se_best s)) (snd global) 10%Q in
  mk_settings (clip (1 # 4) 4 (fst (se_at s) + v0), clip 3 10 (snd (se_at s) + v1))%Q (v0, v1) (se_best s) (se_score s).

Definition am_smote (p : am_params) (c : Q * Q) : smote_params :=
  mk_smote (StFloat (to_f (fst c))) (Z.to_nat (rint (snd c))) (am_ss p).

(** The best settings so far, their score, and the minority rows. *)
Record found := mk_found { fo_at : Q * Q; fo_score : Q * Q; fo_rows : option (list row) }.

(** evaluate_osmote, _amsco.py:336-386, with update_scores_osmote, 314-334.  The rows after those
    of the majority count as minority rows. *)
Fixpoint os_evaluate (p : am_params) (D : dataset) (n_maj : nat) (rs : nat -> rng) (i : nat) (swarm : list settings) (g : found) : res (list settings * found) :=
  match swarm with
  | [] => Ok ([], g)
  | s :: swarm =>
    do out <- smote_sample volume nn (am_smote p (se_at s)) (rs i) D;
    let new := skipn n_maj (fst out) in
    let score := fitness new (firstn n_maj (fst out)) in
    let s' := if Qlt_b (joint (se_score s)) (joint score) then mk_settings (se_at s) (se_vel s) (se_at s) score else s in
    let g' := if Qlt_b (joint (fo_score g)) (joint score) then mk_found (se_at s) score (Some new) else g in
    do rest <- os_evaluate p D n_maj rs (S i) swarm g';
    Ok (s' :: fst rest, snd rest)
  end.

Fixpoint os_loop (more t : nat) (p : am_params) (D : dataset) (n_maj : nat) (rs : nat -> nat -> rng) (swarm : list settings) (g : found) : res found :=
  match more with
  | 0 => Ok g
  | S more =>
    do sg <- os_evaluate p D n_maj (rs t) 0 (map (os_move p (fo_at g)) swarm) g;
    os_loop more (S t) p D n_maj rs (fst sg) (snd sg)
  end.

(** osmote, _amsco.py:388-434.  best_dataset\[0\] raises TypeError if it is None. *)
Definition osmote (p : am_params) (d : draws) (rs : nat -> nat -> rng) (dim : nat) (mn mj : Z) (X_min X_maj : list row) : res (list row) :=
  do swarm <- mapM (os_init d) (seq 0 (am_n_pop p));
  do first <- get swarm 0;
  let D := mk_data (X_maj ++ X_min) dim (repeat mj (length X_maj) ++ repeat mn (length X_min)) in
  do g <- os_loop (am_n_iter p) 0 p D (length X_maj) rs swarm (mk_found (se_at first) (0, 0)%Q None);
  match fo_rows g with Some new => Ok new | None => Err TypeError end.

(** init_particle_sis, _amsco.py:437-451: positions among the majority rows. *)
Definition si_init (d : draws) (lo hi : nat) (i : nat) : res (list nat) :=
  do num <- randint d i 0 (hi - lo);
  mapM (fun k => randint d i (S k) hi) (seq 0 (lo + num)).

(** remove_elements, _amsco.py:453-474. *)
Definition si_remove (d : draws) (part : list nat) : res (list nat) :=
  do n <- randint d 0 0 (Nat.sqrt (length part));
  if length part - n <? 4 then Ok part
  else
    do gone <- mapM (fun k => randint d 1 k (length part)) (seq 0 n);
    Ok (delete_idx part gone).

(** add_elements, _amsco.py:476-495.  The elements of the set are taken in ascending order. *)
Definition si_add (d : draws) (part mutant : list nat) (n_maj : nat) : res (list nat) :=
  let unused := filter (fun i => negb (existsb (Nat.eqb i) part)) (seq 0 n_maj) in
  do n <- randint d 2 0 (Nat.min 10 (length unused));
  do which <- mapM (fun k => randint d 3 k (length unused)) (seq 0 n);
  do new <- gather unused which;
  Ok (mutant ++ new).

(** One round of sis over the particles, _amsco.py:535-550. *)
Fixpoint si_round (X_min X_maj : list row) (ds : nat -> draws) (i : nat) (parts : list (list nat * Q)) (best : Q * option (list nat)) : res (list (list nat * Q) * (Q * option (list nat))) :=
  match parts with
  | [] => Ok ([], best)
  | (part, score) :: parts =>
    do mutant <- si_remove (ds i) part;
    do mutant <- si_add (ds i) part mutant (length X_maj);
    do rows <- gather X_maj mutant;
    let s := snd (fitness X_min rows) in
    let here := if Qlt_b score s then (mutant, s) else (part, score) in
    let best := if Qlt_b (fst best) s then (s, Some mutant) else best in
    do rest <- si_round X_min X_maj ds (S i) parts best;
    Ok (here :: fst rest, snd rest)
  end.

Fixpoint si_loop (more t : nat) (X_min X_maj : list row) (ds : nat -> nat -> draws) (parts : list (list nat * Q)) (best : Q * option (list nat)) : res (Q * option (list nat)) :=
  match more with
  | 0 => Ok best
  | S more =>
    do pb <- si_round X_min X_maj (ds t) 0 parts best;
    si_loop more (S t) X_min X_maj ds (fst pb) (snd pb)
  end.

(** sis, _amsco.py:497-552.  [X_maj\[None\]] has a dimension more, and the next np.vstack, 232,
    raises ValueError. *)
Definition sis (p : am_params) (d : draws) (ds : nat -> nat -> draws) (X_min X_maj : list row) : res (list row) :=
  if length X_maj <=? length X_min then Ok X_maj
  else
    do parts <- mapM (si_init d (length X_min) (length X_maj)) (seq 0 (am_n_pop p));
    do parts <- mapM (fun part => do rows <- gather X_maj part; Ok (part, snd (fitness X_min rows))) parts;
    do best <- si_loop (am_n_iter p) 0 X_min X_maj ds parts (0%Q, None);
    match snd best with Some part => gather X_maj part | None => Err ValueError end.

(** evaluate, _amsco.py:554-603. *)
Definition am_evaluate (current : list row * list row) (new_min new_maj : list row) : list row * list row :=
  let f a b := joint (fitness a b) in
  let f0 := f new_min (snd current) in
  let f1 := f (fst current) (snd current) in
  let f2 := f new_min new_maj in
  let f3 := f (fst current) new_maj in
  let top := q_max (q_max (q_max f0 f1) f2) f3 in
  let current := if Qeq_bool top f1 || Qeq_bool top f3 then (fst current, new_maj) else current in
  if Qeq_bool top f0 || Qeq_bool top f2 then (new_min, snd current) else current.

(** What an iteration draws. *)
Record am_draws := mk_am_draws { ad_os : draws; ad_rs : nat -> nat -> rng; ad_si : draws; ad_mut : nat -> nat -> draws }.

Fixpoint am_loop (more t : nat) (p : am_params) (ads : nat -> am_draws) (dim : nat) (mn mj : Z) (X_min X_maj : list row) (current : list row * list row)
    : res (list row * list row) :=
  match more with
  | 0 => Ok current
  | S more =>
    do new_min <- osmote p (ad_os (ads t)) (ad_rs (ads t)) dim mn mj X_min (snd current);
    do new_maj <- sis p (ad_si (ads t)) (ad_mut (ads t)) (fst current) X_maj;
    am_loop more (S t) p ads dim mn mj X_min X_maj (am_evaluate current new_min new_maj)
  end.

(** AMSCO.sampling_algorithm, _amsco.py:605-661. *)
Definition am_algorithm (p : am_params) (ads : nat -> am_draws) (st : stats) (D : dataset) : res (list row * list Z) :=
  let mn := min_label st in
  let mj := maj_label st in
  let X_min := rows_with mn (d_X D) (d_y D) in
  let X_maj := rows_with mj (d_X D) (d_y D) in
  do current <- am_loop (am_n_iter p) 0 p ads (d_dim D) mn mj X_min X_maj (X_min, X_maj);
  Ok (snd current ++ fst current, repeat mj (length (snd current)) ++ repeat mn (length (fst current))).

Definition am_sample p ads D := sample_with [CMinNMin 4; COther] (am_algorithm p ads) D.

(** ** DSRBF *)

Record rb_params := mk_rb {
  rb_smote : smote_params; rb_m_min : nat; rb_m_max : nat;
  rb_n_pop : nat; rb_n_init_pop : nat; rb_n_iter : nat; rb_n_epoch : nat }.

(** RBFNeuron, _dsrbf.py:23-165: a new neuron, the copy of one, and the random changes. *)
Variable neuron : Type.
Variable create : draws -> nat -> list row -> neuron.
Variable clone : neuron -> neuron.
Variable mutate : draws -> nat -> neuron -> neuron.
Variables delete_connection add_connection : draws -> neuron -> neuron.
(** improve_centers, _dsrbf.py:276-300, and evaluate, 302-313: the loss is a number if the labels
    0 and 1 occur. *)
Variable improve : list row -> list neuron -> list neuron.
Variable loss : list neuron -> list row -> list Z -> Q.

(** RBF, _dsrbf.py:168-274: the rows it works with, and the neurons. *)
Record net := mk_net { ne_X : list row; ne_units : list neuron }.

Definition rb_init (lo hi : nat) (X : list row) (d : draws) : res net :=
  do k <- randint d 0 0 (hi - lo);
  Ok (mk_net X (map (fun i => create d i X) (seq 0 (lo + k)))).

(** mutation, _dsrbf.py:315-325. *)
Definition rb_mutation (d : draws) (a : net) : net :=
  mk_net (ne_X a) (map (fun iu => mutate d (fst iu) (clone (snd iu))) (combine (seq 0 (length (ne_units a))) (ne_units a))).

Definition change (f : neuron -> neuron) (l : list neuron) (i : nat) : res (list neuron) :=
  do u <- get l i; put l i (f u).

(** structural_mutation, _dsrbf.py:327-347. *)
Definition rb_structural (lo hi : nat) (d : draws) (a : net) : res net :=
  let units := map clone (ne_units a) in
  do units <-
    (if Qlt_b (dr_unif d 0 0) (1 # 2) then
       if length units <? hi then Ok (units ++ [create d 0 (ne_X a)])
       else if lo <? length units then do i <- randint d 0 1 (length units); Ok (delete_idx units [i])
       else Ok units
     else
       do i <- randint d 0 2 (length units);
       do units <- change (delete_connection d) units i;
       do j <- randint d 0 3 (length units);
       change (add_connection d) units j);
  Ok (mk_net (ne_X a) units).

(** Neurons drawn with replacement, between one and one less than there are. *)
Definition some_units (d : draws) (t : nat) (units : list neuron) : res (list neuron) :=
  do k <- randint d t 0 (length units - 1);
  do idx <- mapM (fun i => randint d t (S i) (length units)) (seq 0 (S k));
  gather units idx.

Fixpoint shrink (fuel : nat) (d : draws) (hi : nat) (units : list neuron) : res (list neuron) :=
  if length units <=? hi then Ok units
  else
    match fuel with
    | 0 => Err OutOfFuel
    | S fuel => do i <- randint d 3 fuel (length units); shrink fuel d hi (delete_idx units [i])
    end.

(** recombine, _dsrbf.py:349-381. *)
Definition rb_recombine (hi : nat) (d : draws) (a b : net) : res net :=
  let units := map clone (ne_units a) in
  do units <-
    (if Qlt_b (dr_unif d 0 0) (1 # 2) then
       do l <- some_units d 1 units;
       do r <- some_units d 2 (ne_units b);
       let all := map clone l ++ map clone r in
       shrink (length all) d hi all
     else
       mapM (fun iu =>
         if Qlt_b (dr_unif d 4 (fst iu)) (1 # 5) then
           do j <- randint d 5 (fst iu) (length (ne_units b));
           do u <- get (ne_units b) j;
           Ok (clone u)
         else Ok (snd iu)) (combine (seq 0 (length units)) units));
  Ok (mk_net (ne_X a) units).

(** An element of the population: [None] stands for np.inf. *)
Record member := mk_member { me_net : net; me_X : list row; me_y : list Z; me_loss : option Q }.

Definition rb_evaluate (m : member) : member :=
  match me_loss m with
  | Some _ => m
  | None => mk_member (me_net m) (me_X m) (me_y m) (Some (loss (ne_units (me_net m)) (me_X m) (me_y m)))
  end.

(** sorted by the loss: if a label 0 or 1 is missing, all losses are NaN, and the order stays. *)
Definition rb_sorted (ms : list member) : res (list member) :=
  if forallb (fun m => existsb (Z.eqb 1) (me_y m) && existsb (Z.eqb 0) (me_y m)) ms then
    gather ms (argsort (map (fun m => match me_loss m with Some q => q | None => 0%Q end) ms))
  else Ok ms.

(** recombination, _dsrbf.py:560-576. *)
Definition rb_recombination (hi : nat) (ds : nat -> draws) (parents : list member) : res (list member) :=
  mapM (fun im =>
    do j <- randint (ds (fst im)) 6 0 (length parents);
    do b <- get parents j;
    do n <- rb_recombine hi (ds (fst im)) (me_net (snd im)) (me_net b);
    Ok (mk_member n (me_X (snd im)) (me_y (snd im)) None)) (combine (seq 0 (length parents)) parents).

(** The loop of execute_optimization, _dsrbf.py:637-678.  int(0.1 * n_pop) and int(0.9 * n_pop - 1)
    are computed without rounding. *)
Fixpoint rb_loop (more t : nat) (p : rb_params) (hi : nat) (ds : nat -> nat -> draws) (rs : nat -> rng) (D : dataset) (ms : list member) : res (list member) :=
  match more with
  | 0 => Ok ms
  | S more =>
    do ms <- rb_sorted (map rb_evaluate ms);
    let ms := firstn (rb_n_pop p) ms in
    let mutants := map (fun im => mk_member (rb_mutation (ds (3 * t + 1) (fst im)) (me_net (snd im))) (me_X (snd im)) (me_y (snd im)) None)
      (combine (seq 0 (length ms)) (firstn (rb_n_pop p / 10) ms)) in
    let ms := ms ++ mutants in
    do changed <- mapM (fun im =>
        do n <- rb_structural (rb_m_min p) hi (ds (3 * t + 2) (fst im)) (me_net (snd im));
        Ok (mk_member n (me_X (snd im)) (me_y (snd im)) None)) (combine (seq 0 (length ms)) (firstn (9 * rb_n_pop p / 10 - 1) ms));
    let ms := ms ++ changed in
    do recombined <- rb_recombination hi (ds (3 * t + 3)) (firstn (rb_n_pop p / 10) ms);
    let ms := ms ++ recombined in
    let epoch_len := rb_n_iter p / rb_n_epoch p in
    if epoch_len =? 0 then Err ZeroDivisionError
    else
      do ms <-
        (if t mod epoch_len =? 0 then
           do out <- smote_sample volume nn (rb_smote p) (rs (S t)) D;
           Ok (ms ++ map (fun m => mk_member (mk_net (fst out) (improve (fst out) (map clone (ne_units (me_net m))))) (fst out) (snd out) None) ms)
         else Ok ms);
      rb_loop more (S t) p hi ds rs D ms
  end.

(** execute_optimization, _dsrbf.py:578-688. *)
Definition rb_optimize (p : rb_params) (hi : nat) (ds : nat -> nat -> draws) (rs : nat -> rng) (D : dataset) : res (list row * list Z) :=
  do out <- smote_sample volume nn (rb_smote p) (rs 0) D;
  do nets <- mapM (fun i => rb_init (rb_m_min p) hi (fst out) (ds 0 i)) (seq 0 (rb_n_init_pop p));
  do ms <- rb_sorted (map (fun n => rb_evaluate (mk_member n (fst out) (snd out) None)) nets);
  let ms := map (fun m => mk_member (mk_net (ne_X (me_net m)) (improve (ne_X (me_net m)) (ne_units (me_net m)))) (me_X m) (me_y m) (me_loss m)) (firstn (rb_n_pop p) ms) in
  do ms <- rb_loop (rb_n_iter p) 0 p hi ds rs D ms;
  do ms <- rb_sorted (map rb_evaluate ms);
  do best <- get ms 0;
  Ok (me_X best, me_y best).

(** DSRBF.sampling_algorithm, _dsrbf.py:690-727. *)
Variable sd : list Q -> Q.
Definition rb_algorithm (p : rb_params) ds rs (st : stats) (D : dataset) : res (list row * list Z) :=
  do n <- det_n_to_sample_st (sm_proportion (rb_smote p)) st;
  if n =? 0 then Ok (d_X D, d_y D)
  else
    let hi := Nat.min (length (d_X D)) (rb_m_max p) in
    if (hi <=? rb_m_min p) || (length (d_X D) <? rb_m_min p + 1) then Ok (d_X D, d_y D)
    else
      let mm := std_fit sd (d_dim D) (d_X D) in
      do out <- rb_optimize p hi ds rs (mk_data (map (mm_transform mm) (d_X D)) (d_dim D) (d_y D));
      Ok (map (mm_inverse mm) (fst out), snd out).

Definition rb_sample p ds rs D := sample_with checks_default (rb_algorithm p ds rs) D.

(** ** ADG *)

(** The clustering of xmeans, _adg.py:79-105: None if no number of clusters has a score; the
    solution of the system of steps 1 to 4, 464-551 and 638-654: None if it is singular; the
    kernel; the rows drawn from the mixture of xgmeans, 108-135; and the maps of PCA. *)
Variable clusters : list row -> option (list nat).
Variable alpha : nat -> list row -> list row -> option row.
Variable kernel : row -> row -> Q.
Variable mixture : list row -> nat -> nat -> list row.
Variables pca_transform pca_inverse : list row -> nat -> row -> row.

(** The loop of ADG.sampling_algorithm, _adg.py:705-745, with step_5_6_7, 553-579, and step_9_16,
    581-636: is a system singular, and the new rows.  Without rows of the label 0 all entries of
    the system are NaN, and no row is accepted. *)
Fixpoint adg_loop (fuel q t : nat) (x_minus x_plus new : list row) : res (bool * list row) :=
  if q <=? 1 then Ok (false, new)
  else
    match fuel with
    | 0 => Err OutOfFuel
    | S fuel =>
      match clusters (x_plus ++ new) with
      | None => Err AttributeError
      | Some _ =>
        if length x_minus =? 0 then Ok (false, new)
        else
          match alpha t x_minus (x_plus ++ new) with
          | None => Ok (true, new)
          | Some a =>
            let z := mixture x_plus t (q / 2) in
            let kept := filter (fun v => Qlt_b 0 (qsum (map2 Qmult (map (kernel v) (x_minus ++ x_plus ++ new)) a))) z in
            if length kept =? 0 then Ok (false, new)
            else if 100 * length kept <? length (new ++ kept) then Ok (false, new ++ kept)
            else adg_loop fuel (q / 2) (S t) x_minus x_plus (new ++ kept)
          end
      end
    end.

(** ADG.sampling_algorithm, _adg.py:663-761, with evaluate_matrices, 138-184, whose labels are 0 and
    1, and sample_with_n_components, 364-398. *)
Fixpoint adg_sample (fuel : nat) (proportion : strategy) (D : dataset) : res (list row * list Z) :=
  sample_with checks_default (fun st D =>
    do n <- det_n_to_sample_st proportion st;
    if n =? 0 then Ok (d_X D, d_y D)
    else
      let x_minus := rows_with 0%Z (d_X D) (d_y D) in
      let x_plus := rows_with 1%Z (d_X D) (d_y D) in
      if length x_minus + length x_plus =? 0 then Err ValueError
      else
        do out <- adg_loop (2 * n) (2 * n) 0 x_minus x_plus [];
        let X := x_minus ++ x_plus ++ snd out in
        let y := repeat 0%Z (length x_minus) ++ repeat 1%Z (length x_plus) ++ repeat (min_label st) (length (snd out)) in
        let nc := d_dim D / 2 in
        if fst out && (0 <? nc) then
          if length X <? nc then Err ValueError
          else
            match fuel with
            | 0 => Err OutOfFuel
            | S fuel =>
              do out <- adg_sample fuel proportion (mk_data (map (pca_transform X nc) X) nc y);
              Ok (map (pca_inverse X nc) (fst out), snd out)
            end
        else Ok (X, y)) D.

End Samplers.
