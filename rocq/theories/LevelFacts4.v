(** Proofs about LevelModel: Gazzah. *)

From Coq Require Import List ZArith QArith Bool Arith Lia Lqa Sorting.Sorted Permutation.
From Verif Require Import Np NpFacts BaseFacts SimplexModel Spec SpecDanger SpecNoise SpecComp SimplexFacts SimplexGeom Float64
  SamplerModel SamplerFacts OversFacts BaseModel NoiseModel NoiseFacts NoiseFacts2 CompModel CompFacts CompFacts3 CompFacts4
  SpecNear NearFacts LevelModel SpecLevel LevelFacts.
Import ListNotations.
Open Scope nat_scope.

Lemma qsum_cons a l : qsum (a :: l) = (a + qsum l)%Q.
Proof. reflexivity. Qed.

Lemma qsum_map_add {A} (f g : A -> Q) l : (qsum (map (fun x => f x + g x) l) == qsum (map f l) + qsum (map g l))%Q.
Proof. induction l as [|x l IH]; [reflexivity|]. cbn [map]. rewrite !qsum_cons, IH. ring. Qed.

Lemma qsum_swap {A B} (f : A -> B -> Q) la lb :
  (qsum (map (fun a => qsum (map (f a) lb)) la) == qsum (map (fun b => qsum (map (fun a => f a b) la)) lb))%Q.
Proof.
  induction la as [|a la IH].
  - cbn [map]. induction lb as [|b lb IHb]; [reflexivity|]. cbn [map]. rewrite qsum_cons, <- IHb. reflexivity.
  - cbn [map]. rewrite qsum_cons, IH, <- qsum_map_add. apply qsum_map_ext. intros b _. reflexivity.
Qed.

Lemma map_nth_all (x : row) c : length x = c -> map (fun j => nth j x 0%Q) (seq 0 c) = x.
Proof. intros <-. apply NoiseFacts.map_nth_seq. Qed.

Lemma variance_centred l : (qsum l == 0)%Q -> (variance l == qsum (map (fun x => x * x) l) / qn (length l))%Q.
Proof.
  intros H. unfold variance, qn. set (n := inject_Z (Z.of_nat (length l))). assert (E : (qsum l / n == 0)%Q) by (rewrite H; apply Qmult_0_l).
  unfold Qdiv in *. apply Qmult_comp; [|reflexivity]. apply qsum_map_ext. intros x _. cbv beta. rewrite E. ring.
Qed.

Lemma total_variance_mean c T : Forall (fun x => length x = c) T ->
  (forall j, j < c -> (qsum (map (fun x => nth j x 0%Q) T) == 0)%Q) ->
  (total_variance c T == qsum (map sqnorm T) / qn (length T))%Q.
Proof.
  intros F Hc. unfold total_variance.
  transitivity (qsum (map (fun j => qsum (map (fun x => nth j x 0 * nth j x 0)%Q T) / qn (length T))%Q (seq 0 c))).
  { apply qsum_map_ext. intros j Hj. apply in_seq in Hj. rewrite variance_centred by (apply Hc; lia). rewrite map_map, map_length. reflexivity. }
  transitivity (qsum (map (fun j => qsum (map (fun x => nth j x 0 * nth j x 0)%Q T)) (seq 0 c)) / qn (length T))%Q.
  { rewrite <- (qsum_map_div (qn (length T))). rewrite map_map. reflexivity. }
  unfold Qdiv. apply Qmult_comp; [|reflexivity]. rewrite <- (qsum_swap (fun (x : row) j => nth j x 0 * nth j x 0)%Q T (seq 0 c)).
  apply qsum_map_ext. intros x Hx. rewrite Forall_forall in F.
  transitivity (sqnorm (map (fun j => nth j x 0%Q) (seq 0 c))); [|now rewrite (map_nth_all x c (F x Hx))].
  unfold sqnorm. rewrite map_map. reflexivity.
Qed.

Lemma below_mean {A} (f : A -> Q) l : l <> [] -> exists i a, nth_error l i = Some a /\ (f a <= qsum (map f l) / qn (length l))%Q.
Proof.
  intros Hne. assert (Hl : 0 < length l) by (destruct l; [congruence|cbn; lia]).
  set (m := (qsum (map f l) / qn (length l))%Q).
  assert (E : (qsum (map f l) == qn (length l) * m)%Q) by (unfold m; field; now apply qn_nz).
  destruct (existsb (fun a => Qle_bool (f a) m) l) eqn:Ex.
  - apply existsb_exists in Ex as (a & Ha & Q). apply In_nth_error in Ha as (i & Ei). exists i, a. split; [assumption|]. now apply Qle_bool_iff.
  - exfalso. assert (G : forall l', l' <> [] -> incl l' l -> (qn (length l') * m < qsum (map f l'))%Q).
    { induction l' as [|a l' IH]; [congruence|]. intros _ Hi. 
      assert (Ha : (m < f a)%Q).
      { destruct (Qlt_le_dec m (f a)) as [C|C]; [assumption|]. assert (existsb (fun a => Qle_bool (f a) m) l = true); [|congruence].
        apply existsb_exists. exists a. split; [apply Hi; now left|]. now apply Qle_bool_iff. }
      assert (E' : (qn (length (a :: l')) == qn (length l') + 1)%Q).
      { unfold qn. cbn [length]. rewrite Nat2Z.inj_succ. unfold Z.succ. rewrite inject_Z_plus. reflexivity. }
      change (qsum (map f (a :: l'))) with (f a + qsum (map f l'))%Q. rewrite E'. destruct l' as [|b l''].
      - cbn. unfold qn. cbn [Z.of_nat]. change (inject_Z 0) with 0%Q. Lqa.lra.
      - assert (IH' : (qn (length (b :: l'')) * m < qsum (map f (b :: l'')))%Q) by (apply IH; [discriminate|intros z Hz; apply Hi; now right]).
        Lqa.lra. }
    specialize (G l Hne (incl_refl l)). rewrite E in G. now apply Qlt_irrefl in G.
Qed.

Lemma inner_rows_far c X T : length T = length X -> Forall (fun x => length x = c) T ->
  (forall j, j < c -> (qsum (map (fun x => nth j x 0%Q) T) == 0)%Q) -> inner_rows X T (delete_idx X (far c T)).
Proof.
  intros L F Hc. exists (kept (length X) (far c T)). split; [apply filter_StronglySorted, NoiseFacts.seq_StronglySorted|]. split.
  - intros i. rewrite kept_in. unfold far. rewrite NoiseFacts2.where_in, map_length, L.
    set (M := (_ / qn (length X))%Q). assert (TM : (total_variance c T == M)%Q) by (unfold M; rewrite <- L; exact (total_variance_mean c T F Hc)). clearbody M.
    change (qsum (map (fun t => (t * t)%Q) (nth i T []))) with (sqnorm (nth i T [])).
    split; intros [H1 H2]; (split; [assumption|]); [rewrite <- TM|rewrite <- TM in H2].
    + destruct (Qlt_le_dec (total_variance c T) (sqnorm (nth i T []))) as [C|C]; [|assumption]. exfalso. apply H2. split; [assumption|].
      rewrite (nth_indep _ false (Qlt_b (total_variance c T) (sqnorm []))) by (rewrite map_length; lia).
      rewrite (map_nth (fun x => Qlt_b (total_variance c T) (sqnorm x))). now apply BaseFacts.Qlt_b_spec.
    + intros [_ H3]. rewrite (nth_indep _ false (Qlt_b (total_variance c T) (sqnorm []))) in H3 by (rewrite map_length; lia).
      rewrite (map_nth (fun x => Qlt_b (total_variance c T) (sqnorm x))) in H3. apply BaseFacts.Qlt_b_spec in H3. Lqa.lra.
  - apply delete_idx_kept.
Qed.

(** Not every row is far out. *)
Lemma inner_rows_some X T K : length T = length X -> X <> [] -> inner_rows X T K -> K <> [].
Proof.
  intros L HX (ks & S & H & ->). assert (HT : T <> []) by (intros ->; destruct X; [congruence|discriminate]).
  destruct (below_mean (fun x : row => qsum (map (fun t => (t * t)%Q) x)) T HT) as (i & a & Ei & Hi).
  assert (Hlt : i < length X) by (rewrite <- L; apply nth_error_Some; congruence).
  assert (In i ks). { apply H. split; [assumption|]. now rewrite (nth_error_nth T i [] Ei). }
  unfold rows_at. destruct ks; [contradiction|discriminate].
Qed.

Lemma gazzah_outcome pca prop n_components D mn mj n :
  pca_ok pca -> wf_data (d_X D) (d_dim D) (d_y D) -> is_minority (d_y D) mn mj -> asked prop (d_y D) mn mj = Ok n ->
  let out := gazzah_sample pca prop n_components D in
  let c := Nat.min (d_dim D) n_components in
  (count_label (d_y D) mn <= 2 \/ n = 0%Z -> unchanged D out) /\
  (2 < count_label (d_y D) mn -> (0 < n)%Z ->
    (c <= count_label (d_y D) mj -> gazzah_spec pca c D mn mj n out) /\
    (count_label (d_y D) mj < c -> out = Err ValueError)).
Proof.
  intros Hp Hwf Hmin Ha out c. destruct (polynom_runs prop Star D mn mj n Hwf Hmin Ha) as [R1 R2]. destruct Hwf as [Hr Hl].
  edestruct (sample_default (gazzah_algorithm pca prop n_components) D mn mj Hmin) as (st & (E1 & E2 & _) & E).
  assert (EO : out = if count_label (d_y D) mn <=? 2 then Ok (d_X D, d_y D) else gazzah_algorithm pca prop n_components st D) by exact E.
  clearbody out. subst out. split.
  - intros H. unfold unchanged. destruct (Nat.leb_spec (count_label (d_y D) mn) 2); [reflexivity|].
    unfold gazzah_algorithm. rewrite (R1 H). cbn [bind fst]. now rewrite skipn_all.
  - intros H2 Hn. destruct (Nat.leb_spec (count_label (d_y D) mn) 2); [lia|]. destruct (R2 H2 Hn) as (S & ES & HS).
    unfold gazzah_algorithm. rewrite ES. cbn [bind fst]. rewrite skipn_app, skipn_all, Nat.sub_diag. cbn [app skipn].
    assert (HS' : S <> []).
    { destruct HS as (k & (r & -> & _) & (cc & _ & _ & HL & _)). intros ->. change (length (@nil row)) with 0 in HL.
      assert (length (rows_with mn (d_X D) (d_y D)) = count_label (d_y D) mn) by now apply rows_with_length.
      symmetry in HL. apply Nat.mul_eq_0 in HL. cbv zeta in HL. lia. }
    rewrite E1, E2. set (X_maj := rows_with mj (d_X D) (d_y D)).
    assert (LM : length X_maj = count_label (d_y D) mj) by now apply rows_with_length.
    change (Nat.min (d_dim D) n_components) with c.
    assert (EM : forall (A : Type) (x z : A), match S with [] => x | _ :: _ => z end = z) by (intros; destruct S; [congruence|reflexivity]).
    rewrite EM. destruct (Hp c X_maj) as [P1 P2]. split.
    + intros Hc. destruct P2 as (T & ET & LT & FT & CT); [lia|]. rewrite ET. cbn [bind].
      exists T, (delete_idx X_maj (far c T)), S. split; [assumption|]. split; [now apply inner_rows_far|]. split; [assumption|reflexivity].
    + intros Hc. rewrite P1 by lia. reflexivity.
Qed.

(** The result holds some majority row, the generated rows, and nothing else. *)
Lemma gazzah_keeps pca prop n_components D mn mj n X' y' :
  pca_ok pca -> wf_data (d_X D) (d_dim D) (d_y D) -> is_minority (d_y D) mn mj -> asked prop (d_y D) mn mj = Ok n ->
  2 < count_label (d_y D) mn -> (0 < n)%Z -> gazzah_sample pca prop n_components D = Ok (X', y') ->
  exists K S, X' = K ++ S /\ K <> [] /\ incl K (rows_with mj (d_X D) (d_y D)) /\ poly_spec Star D mn n S /\
    y' = repeat mj (length K) ++ repeat mn (length S).
Proof.
  intros Hp Hwf Hmin Ha H2 Hn H. destruct (gazzah_outcome pca prop n_components D mn mj n Hp Hwf Hmin Ha) as [_ G].
  destruct (G H2 Hn) as [G1 G2]. destruct (Nat.le_gt_cases (Nat.min (d_dim D) n_components) (count_label (d_y D) mj)) as [C|C].
  - destruct (G1 C) as (T & K & S & ET & HK & HS & E). rewrite H in E. injection E as -> ->. exists K, S.
    assert (LM : length (rows_with mj (d_X D) (d_y D)) = count_label (d_y D) mj) by (apply rows_with_length; apply Hwf).
    split; [reflexivity|]. split; [|split; [|split; [assumption|reflexivity]]].
    + destruct (Hp (Nat.min (d_dim D) n_components) (rows_with mj (d_X D) (d_y D))) as [_ P2].
      destruct P2 as (T' & ET' & LT & _); [lia|]. rewrite ET in ET'. injection ET' as <-. apply (inner_rows_some _ T K LT); [|assumption].
      intros E. rewrite E in LM. destruct Hmin as [_ Hm]. cbn in LM. lia.
    + destruct HK as (ks & _ & Hks & ->). intros x Hx. unfold rows_at in Hx. apply in_map_iff in Hx as (i & <- & Hi). apply Hks in Hi as [Hi _].
      now apply nth_In.
  - rewrite (G2 C) in H. discriminate.
Qed.
