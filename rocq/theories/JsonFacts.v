(** JSON text: reading a document back, and reading it cut short. *)

From Coq Require Import List ZArith Bool Lia Arith.
From Verif Require Import JsonModel.
Import ListNotations.
Open Scope Z_scope.

(** ** Helpers *)

Lemma eat_some c s r : eat c s = Some r <-> s = c :: r.
Proof.
  destruct s as [|x s]; cbn; [split; discriminate|]. destruct (Z.eqb_spec x c) as [->|N].
  - split; [now intros [= ->]|now intros [= ->]].
  - split; [discriminate|]. intros [= -> ->]. contradiction.
Qed.

Lemma eat_hd c x s : eat c (x :: s) = if x =? c then Some s else None.
Proof. reflexivity. Qed.

Lemma eat_none_app c s q : s <> [] -> eat c s = None -> eat c (s ++ q) = None.
Proof. destruct s as [|x s]; [congruence|]. intros _. cbn. destruct (x =? c); congruence. Qed.

Lemma eat_app c s q r : eat c s = Some r -> eat c (s ++ q) = Some (r ++ q).
Proof. rewrite !eat_some. now intros ->. Qed.

Lemma after_some w s r : after w s = Some r <-> s = w ++ r.
Proof.
  revert s. induction w as [|a w IH]; intros s; cbn [after app].
  - split; [now intros [= ->]|now intros ->].
  - destruct (eat a s) as [t|] eqn:E.
    + apply eat_some in E. subst. rewrite IH. split; [now intros ->|now intros [= ->]].
    + split; [discriminate|]. intros ->. rewrite eat_hd, Z.eqb_refl in E. discriminate E.
Qed.

Lemma after_app w s q r : after w s = Some r -> after w (s ++ q) = Some (r ++ q).
Proof. rewrite !after_some. intros ->. now rewrite app_assoc. Qed.

Lemma after_refl w q : after w (w ++ q) = Some q.
Proof. now apply after_some. Qed.

Lemma after_hd a w x s : x <> a -> after (a :: w) (x :: s) = None.
Proof. intros N. cbn. apply Z.eqb_neq in N. now rewrite N. Qed.

Lemma skip_ws_len s : (length (skip_ws s) <= length s)%nat.
Proof. induction s as [|c s IH]; cbn; [lia|]. destruct (is_ws c); cbn; lia. Qed.

Lemma skip_ws_app s q : skip_ws s <> [] -> skip_ws (s ++ q) = skip_ws s ++ q.
Proof. induction s as [|c s IH]; cbn; [congruence|]. destruct (is_ws c); auto. Qed.

Lemma skip_ws_hd c s : is_ws c = false -> skip_ws (c :: s) = c :: s.
Proof. cbn. now intros ->. Qed.

Ltac inv H := inversion H; subst; clear H.

(** ** Strings *)

Lemma hex4_scan_len s u r : scan_hex4 s = Some (u, r) -> length s = (4 + length r)%nat.
Proof.
  destruct s as [|a [|b [|c [|d s]]]]; cbn; try discriminate.
  destruct (hex_value a), (hex_value b), (hex_value c), (hex_value d); try discriminate. now intros [= _ ->].
Qed.

Lemma hex4_scan_app s u r q : scan_hex4 s = Some (u, r) -> scan_hex4 (s ++ q) = Some (u, r ++ q).
Proof.
  destruct s as [|a [|b [|c [|d s]]]]; cbn; try discriminate.
  destruct (hex_value a), (hex_value b), (hex_value c), (hex_value d); try discriminate. now intros [= -> ->].
Qed.

Lemma scan_str_S k s : scan_str (S k) s =
  let more c r := match scan_str k r with POk t r' => POk (c :: t) r' | PBad => PBad | PFuel => PFuel end in
  match s with
  | [] => PBad
  | c :: r =>
      if c =? 34 then POk [] r
      else if c =? 92 then
        match eat 117 r with
        | None => match r with
                  | e :: r' => match unescape e with Some u => more u r' | None => PBad end
                  | [] => PBad
                  end
        | Some r0 =>
            match scan_hex4 r0 with
            | None => PBad
            | Some (u, r1) =>
                if is_high u then
                  match after [92; 117] r1 with
                  | Some r2 =>
                      match scan_hex4 r2 with
                      | None => PBad
                      | Some (u2, r3) =>
                          if is_low u2 then more (65536 + 1024 * (u - 55296) + (u2 - 56320)) r3 else more u r1
                      end
                  | None => more u r1
                  end
                else more u r1
            end
        end
      else if c <? 32 then PBad else more c r
  end.
Proof. reflexivity. Qed.

(** What a successful scan looks like, whatever the way it went. *)
Inductive str_scan : text -> text -> text -> Prop :=
  | SS_end r : str_scan (34 :: r) [] r
  | SS_esc e u r t r' : e <> 117 -> unescape e = Some u -> str_scan r t r' -> str_scan (92 :: e :: r) (u :: t) r'
  | SS_uni r0 u r1 t r' : scan_hex4 r0 = Some (u, r1) -> is_high u = false -> str_scan r1 t r' ->
      str_scan (92 :: 117 :: r0) (u :: t) r'
  | SS_pair r0 u r2 u2 r3 t r' : scan_hex4 r0 = Some (u, 92 :: 117 :: r2) -> is_high u = true ->
      scan_hex4 r2 = Some (u2, r3) -> is_low u2 = true -> str_scan r3 t r' ->
      str_scan (92 :: 117 :: r0) (65536 + 1024 * (u - 55296) + (u2 - 56320) :: t) r'
  | SS_high r0 u r2 u2 r3 t r' : scan_hex4 r0 = Some (u, 92 :: 117 :: r2) -> is_high u = true ->
      scan_hex4 r2 = Some (u2, r3) -> is_low u2 = false -> str_scan (92 :: 117 :: r2) t r' ->
      str_scan (92 :: 117 :: r0) (u :: t) r'
  | SS_lone r0 u r1 t r' : scan_hex4 r0 = Some (u, r1) -> is_high u = true -> after [92; 117] r1 = None ->
      str_scan r1 t r' -> str_scan (92 :: 117 :: r0) (u :: t) r'
  | SS_char c r t r' : c <> 34 -> c <> 92 -> 32 <= c -> str_scan r t r' -> str_scan (c :: r) (c :: t) r'.

Lemma scan_str_sound k : forall s t r, scan_str k s = POk t r -> str_scan s t r.
Proof.
  induction k as [|k IH]; intros s t r H; [discriminate H|]. rewrite scan_str_S in H. cbn zeta in H.
  destruct s as [|c s]; [discriminate H|].
  destruct (Z.eqb_spec c 34) as [->|N1]; [inv H; constructor|].
  destruct (Z.eqb_spec c 92) as [->|N2].
  - destruct (eat 117 s) as [r0|] eqn:E.
    + apply eat_some in E. subst s. destruct (scan_hex4 r0) as [[u r1]|] eqn:E1; [|discriminate H].
      destruct (is_high u) eqn:Hi.
      * destruct (after [92; 117] r1) as [r2|] eqn:E2.
        { pose proof E2 as E2'. apply after_some in E2'. cbn in E2'. subst r1.
          destruct (scan_hex4 r2) as [[u2 r3]|] eqn:E3; [|discriminate H].
          destruct (is_low u2) eqn:Lo.
          - destruct (scan_str k r3) as [t' r'| |] eqn:E4; inv H. eapply SS_pair; eauto.
          - destruct (scan_str k (92 :: 117 :: r2)) as [t' r'| |] eqn:E4; inv H. eapply SS_high; eauto. }
        destruct (scan_str k r1) as [t' r'| |] eqn:E4; inv H. eapply SS_lone; eauto.
      * destruct (scan_str k r1) as [t' r'| |] eqn:E4; inv H. eapply SS_uni; eauto.
    + destruct s as [|e s]; [discriminate H|]. destruct (unescape e) eqn:U; [|discriminate H].
      destruct (scan_str k s) as [t' r'| |] eqn:E4; inv H. apply SS_esc; auto.
      intros ->. rewrite eat_hd, Z.eqb_refl in E. discriminate E.
  - destruct (Z.ltb_spec c 32); [discriminate H|]. destruct (scan_str k s) as [t' r'| |] eqn:E4; inv H.
    apply SS_char; auto.
Qed.

Lemma str_scan_len s t r : str_scan s t r -> (length r < length s)%nat.
Proof.
  induction 1; cbn [length] in *; repeat match goal with H : scan_hex4 _ = _ |- _ => apply hex4_scan_len in H; cbn [length] in H end; lia.
Qed.

Lemma scan_str_complete s t r : str_scan s t r -> forall k, (length s <= k)%nat -> scan_str k s = POk t r.
Proof.
  induction 1; intros k L; (destruct k as [|k]; [cbn in L; lia|]); rewrite scan_str_S; cbn zeta; cbn [length] in L.
  - reflexivity.
  - change (92 =? 34) with false. change (92 =? 92) with true. cbn iota. rewrite eat_hd.
    apply Z.eqb_neq in H. rewrite H, H0, IHstr_scan by lia. reflexivity.
  - change (92 =? 34) with false. change (92 =? 92) with true. cbn iota. rewrite eat_hd, Z.eqb_refl, H, H0.
    apply hex4_scan_len in H. rewrite IHstr_scan by lia. reflexivity.
  - change (92 =? 34) with false. change (92 =? 92) with true. cbn iota. rewrite eat_hd, Z.eqb_refl, H, H0.
    replace (after [92; 117] (92 :: 117 :: r2)) with (Some r2) by reflexivity. rewrite H1, H2.
    apply hex4_scan_len in H. apply hex4_scan_len in H1. cbn [length] in *. rewrite IHstr_scan by lia. reflexivity.
  - change (92 =? 34) with false. change (92 =? 92) with true. cbn iota. rewrite eat_hd, Z.eqb_refl, H, H0.
    replace (after [92; 117] (92 :: 117 :: r2)) with (Some r2) by reflexivity. rewrite H1, H2.
    apply hex4_scan_len in H. cbn [length] in *. rewrite IHstr_scan by lia. reflexivity.
  - change (92 =? 34) with false. change (92 =? 92) with true. cbn iota. rewrite eat_hd, Z.eqb_refl, H, H0, H1.
    apply hex4_scan_len in H. rewrite IHstr_scan by lia. reflexivity.
  - apply Z.eqb_neq in H, H0. rewrite H, H0. destruct (Z.ltb_spec c 32); [lia|]. rewrite IHstr_scan by lia. reflexivity.
Qed.

Lemma str_scan_nonempty s t r : str_scan s t r -> s <> [].
Proof. now destruct 1. Qed.

Lemma str_scan_app s t r q : str_scan s t r -> str_scan (s ++ q) t (r ++ q).
Proof.
  induction 1; cbn [app].
  - constructor.
  - now apply SS_esc.
  - eapply SS_uni; eauto using hex4_scan_app.
  - apply (hex4_scan_app _ _ _ q) in H. cbn [app] in H. apply (hex4_scan_app _ _ _ q) in H1. eapply SS_pair; eassumption.
  - apply (hex4_scan_app _ _ _ q) in H. cbn [app] in H. apply (hex4_scan_app _ _ _ q) in H1. eapply SS_high; eassumption.
  - eapply SS_lone; eauto using hex4_scan_app.
    destruct r1 as [|x r1]; [exfalso; now apply str_scan_nonempty in H2|].
    cbn [after] in *. rewrite eat_hd in H1. cbn [app]. rewrite eat_hd. destruct (Z.eqb_spec x 92) as [->|]; [|reflexivity].
    destruct r1 as [|y r1]; [inv H2; congruence|].
    cbn [app]. rewrite eat_hd in *. destruct (y =? 117); [discriminate H1|reflexivity].
  - now apply SS_char.
Qed.

Lemma scan_str_fuel k : forall s, (length s < k)%nat -> scan_str k s <> PFuel.
Proof.
  induction k as [|k IH]; intros s L; [lia|]. rewrite scan_str_S. cbn zeta.
  destruct s as [|c s]; [discriminate|]. cbn [length] in L.
  assert (G : forall u r, (length r <= length s)%nat ->
    match scan_str k r with POk t r' => POk (u :: t) r' | PBad => PBad | PFuel => PFuel end <> PFuel).
  { intros u r Lr. specialize (IH r ltac:(lia)). destruct (scan_str k r); congruence. }
  destruct (c =? 34); [discriminate|]. destruct (c =? 92).
  - destruct (eat 117 s) as [r0|] eqn:E.
    + apply eat_some in E. subst s. cbn [length] in *. destruct (scan_hex4 r0) as [[u r1]|] eqn:E1; [|discriminate].
      apply hex4_scan_len in E1. destruct (is_high u); [|apply G; lia].
      destruct (after [92; 117] r1) as [r2|] eqn:E2; [|apply G; lia].
      apply after_some in E2. subst r1. cbn [length app] in *.
      destruct (scan_hex4 r2) as [[u2 r3]|] eqn:E3; [|discriminate]. apply hex4_scan_len in E3.
      destruct (is_low u2); apply G; cbn [length]; lia.
    + destruct s as [|e s]; [discriminate|]. destruct (unescape e); [|discriminate]. apply G. cbn; lia.
  - destruct (c <? 32); [discriminate|]. apply G. lia.
Qed.

(** ** Printed strings *)

Definition is_char (c : Z) : Prop := 0 <= c < 1114112.
(** A high surrogate followed by a low one would be joined by the reader. *)
Fixpoint no_pair (s : text) : Prop :=
  match s with
  | a :: ((b :: _) as r) => ~ (is_high a = true /\ is_low b = true) /\ no_pair r
  | _ => True
  end.
Definition str_ok (s : text) : Prop := Forall is_char s /\ no_pair s.

Lemma hex_digit_value d : 0 <= d < 16 -> hex_value (hex_digit d) = Some d.
Proof.
  intros L. unfold hex_digit, hex_value. destruct (Z.ltb_spec d 10).
  - replace (48 <=? 48 + d) with true by (symmetry; apply Z.leb_le; lia).
    replace (48 + d <=? 57) with true by (symmetry; apply Z.leb_le; lia). cbn [andb]. f_equal. lia.
  - replace (87 + d <=? 57) with false by (symmetry; apply Z.leb_gt; lia). rewrite andb_false_r.
    replace (97 <=? 87 + d) with true by (symmetry; apply Z.leb_le; lia).
    replace (87 + d <=? 102) with true by (symmetry; apply Z.leb_le; lia). cbn [andb]. f_equal. lia.
Qed.

Lemma hex4_scan c r : 0 <= c < 65536 -> scan_hex4 (hex4 c ++ r) = Some (c, r).
Proof.
  intros L. unfold hex4. cbn [app scan_hex4].
  assert (A : 0 <= c / 4096 < 16) by (split; [apply Z.div_pos; lia|apply Z.div_lt_upper_bound; lia]).
  rewrite (hex_digit_value (c / 4096)) by exact A.
  rewrite !hex_digit_value by (apply Z.mod_pos_bound; lia).
  f_equal. f_equal.
  pose proof (Z.div_mod c 16 ltac:(lia)). pose proof (Z.div_mod (c / 16) 16 ltac:(lia)).
  pose proof (Z.div_mod (c / 256) 16 ltac:(lia)).
  replace (c / 16 / 16) with (c / 256) in * by (rewrite Z.div_div by lia; reflexivity).
  replace (c / 256 / 16) with (c / 4096) in * by (rewrite Z.div_div by lia; reflexivity). lia.
Qed.

(** The escape of a character begins with an escaped code unit, or not. *)
Lemma escape_unit c : is_char c ->
  (exists u r, escape c = [92; 117] ++ hex4 u ++ r /\ 0 <= u < 65536 /\ (is_low u = true -> is_low c = true) /\
     ((c < 65536 /\ u = c /\ r = []) \/
      (65536 <= c /\ is_high u = true /\ exists u2, r = [92; 117] ++ hex4 u2 /\ is_low u2 = true /\ 0 <= u2 < 65536 /\
         c = 65536 + 1024 * (u - 55296) + (u2 - 56320)))) \/
  (is_high c = false /\ exists e u, escape c = [92; e] /\ e <> 117 /\ unescape e = Some u /\ u = c) \/
  (is_high c = false /\ escape c = [c] /\ c <> 34 /\ c <> 92 /\ 32 <= c).
Proof.
  intros C. unfold escape.
  destruct (Z.eqb_spec c 34) as [->|N1]; [right; left; split; [reflexivity|]; exists 34, 34; repeat split; discriminate|].
  destruct (Z.eqb_spec c 92) as [->|N2]; [right; left; split; [reflexivity|]; exists 92, 92; repeat split; discriminate|].
  destruct (Z.eqb_spec c 10) as [->|N3]; [right; left; split; [reflexivity|]; exists 110, 10; repeat split; discriminate|].
  destruct (Z.eqb_spec c 13) as [->|N4]; [right; left; split; [reflexivity|]; exists 114, 13; repeat split; discriminate|].
  destruct (Z.eqb_spec c 9) as [->|N5]; [right; left; split; [reflexivity|]; exists 116, 9; repeat split; discriminate|].
  destruct (Z.eqb_spec c 12) as [->|N6]; [right; left; split; [reflexivity|]; exists 102, 12; repeat split; discriminate|].
  destruct (Z.eqb_spec c 8) as [->|N7]; [right; left; split; [reflexivity|]; exists 98, 8; repeat split; discriminate|].
  destruct (Z.leb_spec 32 c); destruct (Z.leb_spec c 126); cbn [andb];
    [right; right; repeat split; auto; unfold is_high; destruct (Z.leb_spec 55296 c); [lia|reflexivity]| | |].
  all: left; destruct (Z.ltb_spec c 65536); unfold is_char in C;
    [exists c, []; rewrite app_nil_r; repeat split; try lia; auto; fail|try lia].
  all: exists (55296 + (c - 65536) / 1024), ([92; 117] ++ hex4 (56320 + (c - 65536) mod 1024)).
  all: assert (D : 0 <= (c - 65536) / 1024 < 1024) by (split; [apply Z.div_pos; lia|apply Z.div_lt_upper_bound; lia]);
    pose proof (Z.mod_pos_bound (c - 65536) 1024 ltac:(lia)) as M; pose proof (Z.div_mod (c - 65536) 1024 ltac:(lia)) as Dm.
  all: assert (Hi : is_high (55296 + (c - 65536) / 1024) = true) by (unfold is_high; apply andb_true_iff; split; apply Z.leb_le; lia).
  all: assert (Lo : is_low (56320 + (c - 65536) mod 1024) = true) by (unfold is_low; apply andb_true_iff; split; apply Z.leb_le; lia).
  all: split; [reflexivity|]; split; [lia|]; split;
    [unfold is_low; intros X; apply andb_true_iff in X as [X _]; apply Z.leb_le in X; lia|].
  all: right; repeat split; auto; eexists; repeat split; auto; try lia.
Qed.

Lemma escape_scan s q : str_ok s -> str_scan (flat_map escape s ++ 34 :: q) s q.
Proof.
  induction s as [|c s IH]; intros [C P]; [constructor|]. inversion C as [|? ? Cc Cs]; subst.
  assert (IH' : str_scan (flat_map escape s ++ 34 :: q) s q).
  { apply IH. split; [assumption|]. destruct s; [exact I|apply P]. }
  cbn [flat_map]. rewrite <- app_assoc.
  destruct (escape_unit c Cc) as [(u & r & E & U & Lw & Cases)|[(_ & e & u & E & Ne & Un & ->)|(_ & E & N1 & N2 & G)]]; rewrite E.
  - destruct Cases as [(L & -> & ->)|(L & Hi & u2 & -> & Lo & U2 & ->)].
    + rewrite app_nil_r. cbn [app]. rewrite <- ?app_assoc.
      destruct (is_high c) eqn:Hi; [|eapply SS_uni; eauto; now rewrite hex4_scan].
      destruct s as [|d s].
      * eapply SS_lone; eauto; [now rewrite hex4_scan|reflexivity].
      * destruct P as [P _]. inversion Cs as [|? ? Cd Cs']; subst.
        destruct (escape_unit d Cd) as [(u & r & E' & U' & Lw' & _)|[(_ & e & u & E' & Ne & Un & ->)|(_ & E' & N1 & N2 & G)]].
        { cbn [flat_map] in *. rewrite E' in *. rewrite <- !app_assoc in *. cbn [app] in *.
          eapply SS_high; [now rewrite hex4_scan|assumption|now rewrite hex4_scan| |assumption].
          destruct (is_low u) eqn:Lu; [|reflexivity]. exfalso. apply P. split; [assumption|auto]. }
        { cbn [flat_map] in *. rewrite E' in *. cbn [app] in *. eapply SS_lone; [now rewrite hex4_scan|assumption| |assumption].
          cbn [after]. rewrite eat_hd. cbn. apply Z.eqb_neq in Ne. now rewrite Ne. }
        { cbn [flat_map] in *. rewrite E' in *. cbn [app] in *. eapply SS_lone; [now rewrite hex4_scan|assumption| |assumption].
          cbn [after]. rewrite eat_hd. apply Z.eqb_neq in N2. now rewrite N2. }
    + rewrite <- !app_assoc. cbn [app]. eapply SS_pair; [now rewrite hex4_scan|assumption|now rewrite hex4_scan|assumption|assumption].
  - cbn [app]. now apply SS_esc.
  - cbn [app]. now apply SS_char.
Qed.

(** ** Numbers *)

Lemma span_split s d r : span_digits s = (d, r) -> s = d ++ r /\ Forall (fun c => is_digit c = true) d.
Proof.
  revert d r. induction s as [|c s IH]; intros d r; cbn; [intros [= <- <-]; auto|].
  destruct (is_digit c) eqn:D; [|intros [= <- <-]; auto].
  destruct (span_digits s) as [a b]. intros [= <- <-]. destruct (IH a b eq_refl) as [-> Fa]. split; [reflexivity|]. now constructor.
Qed.

Lemma span_app s d r q : span_digits s = (d, r) -> r <> [] -> span_digits (s ++ q) = (d, r ++ q).
Proof.
  revert d r. induction s as [|c s IH]; intros d r; cbn; [intros [= <- <-]; congruence|].
  destruct (is_digit c) eqn:D; [|intros [= <- <-]; auto].
  destruct (span_digits s) as [a b]. intros [= <- <-] N. now rewrite (IH a b eq_refl N).
Qed.

Lemma span_all d c r : Forall (fun c => is_digit c = true) d -> is_digit c = false -> span_digits (d ++ c :: r) = (d, c :: r).
Proof. induction 1 as [|x d Hx _ IH]; intros N; cbn; [now rewrite N|]. now rewrite Hx, IH. Qed.

Lemma span_all_nil d : Forall (fun c => is_digit c = true) d -> span_digits d = (d, []).
Proof. induction 1 as [|x d Hx _ IH]; cbn; [reflexivity|]. now rewrite Hx, IH. Qed.

(** Characters that cannot continue a number. *)
Definition num_stop (c : Z) : bool := negb (is_digit c || (c =? 46) || (c =? 101) || (c =? 69)).

Lemma num_stop_facts c : num_stop c = true -> is_digit c = false /\ (c =? 46) = false /\ ((c =? 101) || (c =? 69)) = false.
Proof.
  unfold num_stop. rewrite negb_true_iff, !orb_false_iff. tauto.
Qed.

Lemma ws_stop c : is_ws c = true -> num_stop c = true.
Proof.
  unfold is_ws. rewrite !orb_true_iff, !Z.eqb_eq. intros [[[->| ->]| ->]| ->]; reflexivity.
Qed.

Lemma frac_len s f r : scan_frac s = (f, r) -> s = f ++ r.
Proof.
  unfold scan_frac. destruct (eat 46 s) as [t|] eqn:E; [|now intros [= <- <-]]. apply eat_some in E.
  destruct (span_digits t) as [d r'] eqn:Sp. apply span_split in Sp as [-> _]. destruct d; intros [= <- <-]; subst; reflexivity.
Qed.

Lemma exp_len s e r : scan_exp s = (e, r) -> s = e ++ r.
Proof.
  unfold scan_exp. destruct s as [|x s]; [now intros [= <- <-]|].
  destruct ((x =? 101) || (x =? 69)); [|now intros [= <- <-]].
  destruct s as [|y s].
  - cbn. now intros [= <- <-].
  - destruct ((y =? 43) || (y =? 45)).
    + destruct (span_digits s) as [d r'] eqn:Sp. apply span_split in Sp as [-> _]. destruct d; intros [= <- <-]; reflexivity.
    + destruct (span_digits (y :: s)) as [d r'] eqn:Sp. apply span_split in Sp as [-> _]. destruct d; intros [= <- <-]; reflexivity.
Qed.

Lemma int_len s d r : scan_int s = Some (d, r) -> s = d ++ r /\ d <> [].
Proof.
  assert (G : forall s d r, scan_nat s = Some (d, r) -> s = d ++ r /\ d <> []).
  { clear. intros s d r. unfold scan_nat. destruct s as [|c s]; [discriminate|].
    destruct (Z.eqb_spec c 48) as [->|N]; [now intros [= <- <-]|]. destruct (is_digit c) eqn:D; [|discriminate].
    cbn. rewrite D. destruct (span_digits s) as [a b] eqn:Sp. apply span_split in Sp as [-> _]. now intros [= <- <-]. }
  unfold scan_int. destruct (eat 45 s) as [t|] eqn:E; [|apply G]. apply eat_some in E. subst.
  destruct (scan_nat t) as [[d' r']|] eqn:Sn; [|discriminate]. intros [= <- <-]. apply G in Sn as [-> _]. split; [reflexivity|discriminate].
Qed.

Lemma int_app s d r q : scan_int s = Some (d, r) -> r <> [] -> scan_int (s ++ q) = Some (d, r ++ q).
Proof.
  assert (G : forall s d r, scan_nat s = Some (d, r) -> r <> [] -> scan_nat (s ++ q) = Some (d, r ++ q)).
  { clear. intros s d r. unfold scan_nat. destruct s as [|c s]; [discriminate|]. cbn [app].
    destruct (Z.eqb_spec c 48) as [->|N]; [now intros [= <- <-]|]. destruct (is_digit c) eqn:D; [|discriminate].
    intros [= Sp] Nr. f_equal. apply (span_app (c :: s) d r q Sp Nr). }
  unfold scan_int. destruct (eat 45 s) as [t|] eqn:E.
  - rewrite (eat_app _ _ q _ E). destruct (scan_nat t) as [[d' r']|] eqn:Sn; [|discriminate]. intros [= <- <-] Nr.
    now rewrite (G t d' r' Sn Nr).
  - intros H Nr. rewrite eat_none_app; [auto| |assumption]. intros ->. discriminate H.
Qed.

Lemma frac_app s f r q c : scan_frac s = (f, c :: r) -> (f = [] -> c <> 46) -> scan_frac (s ++ q) = (f, (c :: r) ++ q).
Proof.
  unfold scan_frac. destruct (eat 46 s) as [t|] eqn:E.
  - rewrite (eat_app _ _ q _ E). apply eat_some in E. destruct (span_digits t) as [d r'] eqn:Sp.
    destruct d as [|x d].
    + intros [= <- H] N. exfalso. subst s. injection H as H1 H2. subst c. now apply N.
    + intros [= <- ->] _. now rewrite (span_app t (x :: d) (c :: r) q Sp) by discriminate.
  - intros [= <- ->] _. now rewrite (eat_none_app 46 (c :: r) q).
Qed.

Lemma exp_app s e r q c : scan_exp s = (e, c :: r) -> num_stop c = true -> scan_exp (s ++ q) = (e, (c :: r) ++ q).
Proof.
  intros H N. apply num_stop_facts in N as (N1 & _ & N2). unfold scan_exp in *. destruct s as [|x s]; [discriminate H|]. cbn [app].
  destruct ((x =? 101) || (x =? 69)) eqn:X; [|injection H as <- <- <-; reflexivity].
  destruct s as [|y s].
  - cbn in H. injection H as H1 H2 H3. congruence.
  - cbn [app]. destruct ((y =? 43) || (y =? 45)).
    + destruct (span_digits s) as [d r'] eqn:Sp. destruct d as [|z d]; [injection H as H1 H2 H3; congruence|].
      injection H as <- ->. now rewrite (span_app s (z :: d) (c :: r) q Sp) by discriminate.
    + destruct (span_digits (y :: s)) as [d r'] eqn:Sp. destruct d as [|z d]; [injection H as H1 H2 H3; congruence|].
      injection H as <- ->. pose proof (span_app (y :: s) (z :: d) (c :: r) q Sp ltac:(discriminate)) as G. cbn [app] in G. now rewrite G.
Qed.

(** ** Printed numbers *)

Definition all_digits (d : text) : Prop := Forall (fun c => is_digit c = true) d.
Definition tail_ok (k : text) : Prop := match k with [] => True | c :: _ => num_stop c = true end.

Lemma span_tail d k : all_digits d -> (match k with [] => True | c :: _ => is_digit c = false end) -> span_digits (d ++ k) = (d, k).
Proof.
  intros D K. destruct k as [|c k]; [rewrite app_nil_r; now apply span_all_nil|]. now apply span_all.
Qed.

Lemma digits_value_snoc d c : digits_value (d ++ [c]) = 10 * digits_value d + (c - 48).
Proof. unfold digits_value. now rewrite fold_left_app. Qed.

Lemma digits_rev_spec k z : 0 <= z < 2 ^ Z.of_nat k -> (k <> 0)%nat ->
  digits_value (rev (digits_rev k z)) = z /\ all_digits (rev (digits_rev k z)) /\
  exists c d, rev (digits_rev k z) = c :: d /\ (c = 48 -> z = 0 /\ d = []).
Proof.
  revert z. induction k as [|k IH]; intros z Hz Nk; [congruence|]. cbn [digits_rev rev].
  pose proof (Z.div_mod z 10 ltac:(lia)) as Dm. pose proof (Z.mod_pos_bound z 10 ltac:(lia)) as Mb.
  rewrite digits_value_snoc.
  assert (Dg : is_digit (48 + z mod 10) = true) by (unfold is_digit; apply andb_true_iff; split; apply Z.leb_le; lia).
  destruct (Z.ltb_spec z 10) as [L|L].
  - change (rev (@nil Z)) with (@nil Z). cbn [app]. change (digits_value []) with 0. rewrite Z.mod_small in * by lia. repeat split.
    + lia.
    + constructor; [|constructor]. exact Dg.
    + exists (48 + z), []. split; [reflexivity|]. intros. split; [lia|reflexivity].
  - assert (Pz : 2 ^ Z.of_nat (S k) = 2 * 2 ^ Z.of_nat k) by (rewrite Nat2Z.inj_succ, Z.pow_succ_r; lia).
    assert (B : 0 <= z / 10 < 2 ^ Z.of_nat k) by (split; [apply Z.div_pos; lia|lia]).
    assert (Nk' : (k <> 0)%nat). { intros ->. cbn in B. lia. }
    destruct (IH (z / 10) B Nk') as (V & D & c & d & E & C). repeat split.
    + rewrite V. lia.
    + apply Forall_app. split; [exact D|]. now constructor.
    + exists c, (d ++ [48 + z mod 10]). rewrite E. split; [reflexivity|]. intros ->. destruct (C eq_refl) as [Z0 _]. lia.
Qed.

Lemma digits_spec z : 0 <= z ->
  digits_value (digits z) = z /\ all_digits (digits z) /\ exists c d, digits z = c :: d /\ (c = 48 -> z = 0 /\ d = []).
Proof.
  intros Hz. apply digits_rev_spec; [|lia]. split; [assumption|].
  destruct (Z.eq_dec z 0) as [->|N]; [reflexivity|].
  rewrite Nat2Z.inj_succ, Z2Nat.id by apply Z.log2_nonneg. apply Z.log2_spec. lia.
Qed.

Lemma scan_nat_tail c d k : all_digits (c :: d) -> (c = 48 -> d = []) ->
  (match k with [] => True | x :: _ => is_digit x = false end) -> scan_nat ((c :: d) ++ k) = Some (c :: d, k).
Proof.
  intros D C K. cbn [app]. unfold scan_nat. destruct (Z.eqb_spec c 48) as [->|N]; [now rewrite C|].
  inversion D as [|? ? Dc Dd]; subst. rewrite Dc. f_equal. apply (span_tail (c :: d) k D K).
Qed.

Lemma tail_digit k : tail_ok k -> match k with [] => True | x :: _ => is_digit x = false end.
Proof. destruct k as [|c k]; [trivial|]. cbn. intros N. now apply num_stop_facts in N. Qed.

Lemma tail_frac k : tail_ok k -> scan_frac k = ([], k).
Proof. destruct k as [|c k]; [reflexivity|]. cbn. intros N. apply num_stop_facts in N as (_ & N & _). unfold scan_frac. cbn. now rewrite N. Qed.

Lemma tail_exp k : tail_ok k -> scan_exp k = ([], k).
Proof. destruct k as [|c k]; [reflexivity|]. cbn. intros N. apply num_stop_facts in N as (_ & _ & N). now rewrite N. Qed.

(** The decimal texts float.__repr__ produces: a JSON number with a fraction or
    an exponent. *)
Definition decimal (t : text) : Prop :=
  exists sg c d f e, t = sg ++ (c :: d) ++ f ++ e /\ (sg = [] \/ sg = [45]) /\ all_digits (c :: d) /\ (c = 48 -> d = []) /\
    (f = [] \/ exists x g, f = 46 :: x :: g /\ all_digits (x :: g)) /\
    (e = [] \/ exists s x g, e = 101 :: s ++ x :: g /\ (s = [] \/ s = [43] \/ s = [45]) /\ all_digits (x :: g)) /\
    (f <> [] \/ e <> []).
Definition float_text (t : text) : Prop := t = t_nan \/ t = t_inf \/ t = t_ninf \/ decimal t.

Lemma scan_int_tail sg c d k : (sg = [] \/ sg = [45]) -> all_digits (c :: d) -> (c = 48 -> d = []) ->
  (match k with [] => True | x :: _ => is_digit x = false end) -> scan_int (sg ++ (c :: d) ++ k) = Some (sg ++ c :: d, k).
Proof.
  intros [->| ->] D C K; unfold scan_int.
  - cbn [app]. rewrite eat_hd. destruct (Z.eqb_spec c 45) as [->|N]; [inversion D; discriminate|]. now apply (scan_nat_tail c d k).
  - cbn [app]. rewrite eat_hd, Z.eqb_refl. change (c :: d ++ k) with ((c :: d) ++ k). now rewrite scan_nat_tail.
Qed.

Section SCAN.
Context {F : Type}.
Variable frepr : F -> text.
Variable fparse : text -> F.
Notation json := (json F).
Notation scan := (scan fparse).
Notation members := (members fparse).
Notation elems := (elems fparse).
Notation scan_number := (scan_number fparse).
Notation print := (print frepr).

Definition is_num (v : json) : bool := match v with JInt _ | JFloat _ => true | _ => false end.
Definition stops (v : json) (r : text) : Prop := is_num v = false \/ exists c r', r = c :: r' /\ num_stop c = true.

Lemma number_len s v r : scan_number s = POk v r -> (length r < length s)%nat /\ is_num v = true.
Proof.
  unfold JsonModel.scan_number. destruct (scan_int s) as [[d r0]|] eqn:E.
  - apply int_len in E as [-> Nd]. destruct (scan_frac r0) as [f r1] eqn:Ef. apply frac_len in Ef. subst r0.
    destruct (scan_exp r1) as [e r2] eqn:Ee. apply exp_len in Ee. subst r1.
    intros H. assert (r = r2 /\ is_num v = true) as [-> V] by (destruct f, e; injection H as <- <-; auto).
    split; [|assumption]. rewrite !app_length. destruct d; [contradiction|]. cbn. lia.
  - destruct (after t_nan s) as [t|] eqn:A1; [apply after_some in A1; intros [= <- <-]; subst; rewrite app_length; cbn; split; [lia|reflexivity]|].
    destruct (after t_inf s) as [t|] eqn:A2; [apply after_some in A2; intros [= <- <-]; subst; rewrite app_length; cbn; split; [lia|reflexivity]|].
    destruct (after t_ninf s) as [t|] eqn:A3; [apply after_some in A3; intros [= <- <-]; subst; rewrite app_length; cbn; split; [lia|reflexivity]|].
    discriminate.
Qed.

Lemma number_app s v r q c : scan_number s = POk v (c :: r) -> num_stop c = true -> scan_number (s ++ q) = POk v ((c :: r) ++ q).
Proof.
  intros H N. unfold JsonModel.scan_number in *. destruct (scan_int s) as [[d r0]|] eqn:E.
  - destruct (scan_frac r0) as [f r1] eqn:Ef. destruct (scan_exp r1) as [e r2] eqn:Ee.
    assert (r2 = c :: r) by (destruct f, e; injection H as <- <-; auto). subst r2.
    pose proof (exp_app _ _ _ q _ Ee N) as Ee'. pose proof (exp_len _ _ _ Ee) as L1. pose proof (frac_len _ _ _ Ef) as L0.
    assert (X : exists c1 t, r1 = c1 :: t /\ (f = [] -> c1 <> 46)).
    { destruct e as [|x e]; cbn in L1; rewrite L1; eexists; eexists; (split; [reflexivity|]); intros _.
      - apply num_stop_facts in N as (_ & N & _). now apply Z.eqb_neq in N.
      - intros ->. rewrite L1 in Ee. cbn in Ee. discriminate Ee. }
    destruct X as (c1 & t & E1 & X). rewrite E1 in Ef. pose proof (frac_app _ _ _ q _ Ef X) as Ef'.
    rewrite (int_app _ _ _ q E) by (rewrite L0, E1; destruct f; discriminate).
    rewrite Ef', <- E1, Ee'. destruct f, e; injection H as <-; reflexivity.
  - assert (G : forall w t, after w s = Some t -> w <> [] -> hd 0 w <> 45 -> is_digit (hd 0 w) = false -> scan_int (s ++ q) = None).
    { intros w t A Nw N1 N2. apply after_some in A. destruct w as [|x w]; [contradiction|]. cbn in N1, N2. subst s. cbn [app].
      unfold scan_int. rewrite eat_hd. apply Z.eqb_neq in N1. rewrite N1. unfold scan_nat.
      destruct (Z.eqb_spec x 48) as [->|]; [discriminate N2|]. now rewrite N2. }
    destruct (after t_nan s) as [t|] eqn:A1.
    { rewrite (G _ _ A1) by (reflexivity || discriminate). rewrite (after_app _ _ q _ A1). now injection H as <- ->. }
    destruct (after t_inf s) as [t|] eqn:A2.
    { rewrite (G _ _ A2) by (reflexivity || discriminate). rewrite (after_app _ _ q _ A2).
      apply after_some in A2. subst s. injection H as <- ->. reflexivity. }
    destruct (after t_ninf s) as [t|] eqn:A3; [|discriminate H].
    rewrite (after_app _ _ q _ A3). apply after_some in A3. subst s. injection H as <- ->. reflexivity.
Qed.

Lemma const_app s v r q : after t_null s = None -> after t_true s = None -> after t_false s = None ->
  scan_number s = POk v r ->
  after t_null (s ++ q) = None /\ after t_true (s ++ q) = None /\ after t_false (s ++ q) = None.
Proof.
  intros A1 A2 A3 H. destruct s as [|x s]; [discriminate H|].
  assert (N : forall y, In y [110; 116; 102] -> x <> y).
  { intros y Hy ->. destruct Hy as [<-|[<-|[<-|[]]]]; cbn in H; discriminate H. }
  cbn [app]. repeat split; apply after_hd; apply N; cbn; auto.
Qed.

Lemma scan_S k s : scan (S k) s =
      match eat 34 s with
      | Some r => match scan_str (S (length r)) r with POk t r' => POk (JStr t) r' | PBad => PBad | PFuel => PFuel end
      | None =>
      match eat 123 s with
      | Some r =>
          match eat 125 (skip_ws r) with
          | Some r' => POk (JObj []) r'
          | None =>
              match eat 34 (skip_ws r) with
              | Some r' => match members k r' with POk l r'' => POk (JObj (dict_of l)) r'' | PBad => PBad | PFuel => PFuel end
              | None => PBad
              end
          end
      | None =>
      match eat 91 s with
      | Some r =>
          match eat 93 (skip_ws r) with
          | Some r' => POk (JArr []) r'
          | None => match elems k (skip_ws r) with POk l r'' => POk (JArr l) r'' | PBad => PBad | PFuel => PFuel end
          end
      | None =>
      match after t_null s with Some r => POk JNull r | None =>
      match after t_true s with Some r => POk (JBool true) r | None =>
      match after t_false s with Some r => POk (JBool false) r | None => scan_number s
      end end end end end end.
Proof. reflexivity. Qed.

Lemma members_S k s : members (S k) s =
      match scan_str (S (length s)) s with
      | PBad => PBad | PFuel => PFuel
      | POk key r =>
          match eat 58 (skip_ws r) with
          | Some r1 =>
              match scan k (skip_ws r1) with
              | PBad => PBad | PFuel => PFuel
              | POk v r2 =>
                  match eat 125 (skip_ws r2) with
                  | Some r3 => POk [(key, v)] r3
                  | None =>
                      match eat 44 (skip_ws r2) with
                      | Some r3 =>
                          match eat 34 (skip_ws r3) with
                          | Some r4 => match members k r4 with POk l r5 => POk ((key, v) :: l) r5 | PBad => PBad | PFuel => PFuel end
                          | None => PBad
                          end
                      | None => PBad
                      end
                  end
              end
          | None => PBad
          end
      end.
Proof. reflexivity. Qed.

Lemma elems_S k s : elems (S k) s =
      match scan k s with
      | PBad => PBad | PFuel => PFuel
      | POk v r =>
          match eat 93 (skip_ws r) with
          | Some r1 => POk [v] r1
          | None =>
              match eat 44 (skip_ws r) with
              | Some r1 => match elems k (skip_ws r1) with POk l r2 => POk (v :: l) r2 | PBad => PBad | PFuel => PFuel end
              | None => PBad
              end
          end
      end.
Proof. reflexivity. Qed.

Lemma eat_ws_len c s r : eat c (skip_ws s) = Some r -> (length r < length s)%nat.
Proof. intros E. apply eat_some in E. pose proof (skip_ws_len s) as L. rewrite E in L. cbn in L. lia. Qed.

Lemma eat_ws_stop c s r : eat c (skip_ws s) = Some r -> num_stop c = true -> exists x t, s = x :: t /\ num_stop x = true.
Proof.
  intros E N. apply eat_some in E. destruct s as [|x t]; [discriminate E|]. exists x, t. split; [reflexivity|].
  cbn in E. destruct (is_ws x) eqn:W; [now apply ws_stop|]. now injection E as -> _.
Qed.

Lemma eat_ws_app c s r q : eat c (skip_ws s) = Some r -> eat c (skip_ws (s ++ q)) = Some (r ++ q).
Proof. intros E. rewrite skip_ws_app; [now apply eat_app|]. intros N. rewrite N in E. discriminate E. Qed.

Lemma eat_ws_app_none c s q : skip_ws s <> [] -> eat c (skip_ws s) = None -> eat c (skip_ws (s ++ q)) = None.
Proof. intros N E. rewrite skip_ws_app by assumption. now apply eat_none_app. Qed.

Lemma eat_nonempty c s r : eat c s = Some r -> s <> [].
Proof. now intros E ->. Qed.

Lemma scan_len n :
  (forall s v r, scan n s = POk v r -> (length r < length s)%nat) /\
  (forall s v r, members n s = POk v r -> (length r < length s)%nat) /\
  (forall s v r, elems n s = POk v r -> (length r < length s)%nat).
Proof.
  induction n as [|n (IH1 & IH2 & IH3)]; [repeat split; discriminate|]. repeat split; intros s v r H.
  - rewrite scan_S in H. destruct (eat 34 s) as [r0|] eqn:E1.
    { apply eat_some in E1. subst. destruct (scan_str (S (length r0)) r0) as [t r'| |] eqn:E; inv H.
      apply scan_str_sound, str_scan_len in E. cbn. lia. }
    destruct (eat 123 s) as [r0|] eqn:E2.
    { apply eat_some in E2. subst. cbn [length]. destruct (eat 125 (skip_ws r0)) as [r'|] eqn:E; [apply eat_ws_len in E; inv H; lia|].
      destruct (eat 34 (skip_ws r0)) as [r'|] eqn:E'; [|discriminate H]. apply eat_ws_len in E'.
      destruct (members n r') as [l r''| |] eqn:M; inv H. apply IH2 in M. lia. }
    destruct (eat 91 s) as [r0|] eqn:E3.
    { apply eat_some in E3. subst. cbn [length]. destruct (eat 93 (skip_ws r0)) as [r'|] eqn:E; [apply eat_ws_len in E; inv H; lia|].
      destruct (elems n (skip_ws r0)) as [l r''| |] eqn:M; inv H. apply IH3 in M. pose proof (skip_ws_len r0). lia. }
    destruct (after t_null s) as [t|] eqn:A1; [apply after_some in A1; inv H; rewrite app_length; cbn; lia|].
    destruct (after t_true s) as [t|] eqn:A2; [apply after_some in A2; inv H; rewrite app_length; cbn; lia|].
    destruct (after t_false s) as [t|] eqn:A3; [apply after_some in A3; inv H; rewrite app_length; cbn; lia|].
    now apply number_len in H.
  - rewrite members_S in H. destruct (scan_str (S (length s)) s) as [key r0| |] eqn:E; try discriminate H.
    apply scan_str_sound, str_scan_len in E. destruct (eat 58 (skip_ws r0)) as [r1|] eqn:E1; [|discriminate H]. apply eat_ws_len in E1.
    destruct (scan n (skip_ws r1)) as [v' r2| |] eqn:E2; try discriminate H. apply IH1 in E2. pose proof (skip_ws_len r1).
    destruct (eat 125 (skip_ws r2)) as [r3|] eqn:E3; [apply eat_ws_len in E3; inv H; lia|].
    destruct (eat 44 (skip_ws r2)) as [r3|] eqn:E4; [apply eat_ws_len in E4|discriminate H].
    destruct (eat 34 (skip_ws r3)) as [r4|] eqn:E5; [apply eat_ws_len in E5|discriminate H].
    destruct (members n r4) as [l r5| |] eqn:M; inv H. apply IH2 in M. lia.
  - rewrite elems_S in H. destruct (scan n s) as [v' r2| |] eqn:E2; try discriminate H. apply IH1 in E2.
    destruct (eat 93 (skip_ws r2)) as [r3|] eqn:E3; [apply eat_ws_len in E3; inv H; lia|].
    destruct (eat 44 (skip_ws r2)) as [r3|] eqn:E4; [apply eat_ws_len in E4|discriminate H].
    destruct (elems n (skip_ws r3)) as [l r5| |] eqn:M; inv H. apply IH3 in M. pose proof (skip_ws_len r3). lia.
Qed.

(** With enough fuel the scanner either reads a value or raises. *)
Lemma scan_fuel n :
  (forall s, (2 * length s < n)%nat -> scan n s <> PFuel) /\
  (forall s, (2 * length s + 1 < n)%nat -> members n s <> PFuel) /\
  (forall s, (2 * length s + 1 < n)%nat -> elems n s <> PFuel).
Proof.
  induction n as [|n (IH1 & IH2 & IH3)]; [repeat split; intros; lia|]. destruct (scan_len n) as (L1 & L2 & L3).
  repeat split; intros s L.
  - rewrite scan_S. destruct (eat 34 s) as [r0|] eqn:E1.
    { pose proof (scan_str_fuel (S (length r0)) r0 ltac:(lia)). destruct (scan_str (S (length r0)) r0); congruence. }
    destruct (eat 123 s) as [r0|] eqn:E2.
    { apply eat_some in E2. subst. cbn [length] in L. destruct (eat 125 (skip_ws r0)) as [r'|] eqn:E; [discriminate|].
      destruct (eat 34 (skip_ws r0)) as [r'|] eqn:E'; [|discriminate]. apply eat_ws_len in E'.
      specialize (IH2 r' ltac:(lia)). destruct (members n r'); congruence. }
    destruct (eat 91 s) as [r0|] eqn:E3.
    { apply eat_some in E3. subst. cbn [length] in L. destruct (eat 93 (skip_ws r0)) as [r'|] eqn:E; [discriminate|].
      pose proof (skip_ws_len r0). specialize (IH3 (skip_ws r0) ltac:(lia)). destruct (elems n (skip_ws r0)); congruence. }
    destruct (after t_null s); [discriminate|]. destruct (after t_true s); [discriminate|]. destruct (after t_false s); [discriminate|].
    unfold JsonModel.scan_number. destruct (scan_int s) as [[d r0]|].
    { destruct (scan_frac r0) as [f r1]. destruct (scan_exp r1) as [e r2]. destruct f, e; discriminate. }
    destruct (after t_nan s); [discriminate|]. destruct (after t_inf s); [discriminate|]. destruct (after t_ninf s); discriminate.
  - rewrite members_S. destruct (scan_str (S (length s)) s) as [key r0| |] eqn:E; try discriminate.
    2: { exfalso. now apply (scan_str_fuel (S (length s)) s ltac:(lia)). }
    apply scan_str_sound, str_scan_len in E. destruct (eat 58 (skip_ws r0)) as [r1|] eqn:E1; [|discriminate]. apply eat_ws_len in E1.
    pose proof (skip_ws_len r1). pose proof (IH1 (skip_ws r1) ltac:(lia)) as G.
    destruct (scan n (skip_ws r1)) as [v' r2| |] eqn:E2; try congruence. apply L1 in E2.
    destruct (eat 125 (skip_ws r2)) as [r3|] eqn:E3; [discriminate|].
    destruct (eat 44 (skip_ws r2)) as [r3|] eqn:E4; [apply eat_ws_len in E4|discriminate].
    destruct (eat 34 (skip_ws r3)) as [r4|] eqn:E5; [apply eat_ws_len in E5|discriminate].
    specialize (IH2 r4 ltac:(lia)). destruct (members n r4); congruence.
  - rewrite elems_S. pose proof (IH1 s ltac:(lia)) as G. destruct (scan n s) as [v' r2| |] eqn:E2; try congruence. apply L1 in E2.
    destruct (eat 93 (skip_ws r2)) as [r3|] eqn:E3; [discriminate|].
    destruct (eat 44 (skip_ws r2)) as [r3|] eqn:E4; [apply eat_ws_len in E4|discriminate].
    pose proof (skip_ws_len r3). specialize (IH3 (skip_ws r3) ltac:(lia)). destruct (elems n (skip_ws r3)); congruence.
Qed.

(** Text appended to what was read does not matter, except directly behind a
    number; nor does additional fuel. *)
Lemma scan_app n :
  (forall s v r, scan n s = POk v r -> forall q m, (n <= m)%nat -> stops v r -> scan m (s ++ q) = POk v (r ++ q)) /\
  (forall s v r, members n s = POk v r -> forall q m, (n <= m)%nat -> members m (s ++ q) = POk v (r ++ q)) /\
  (forall s v r, elems n s = POk v r -> forall q m, (n <= m)%nat -> elems m (s ++ q) = POk v (r ++ q)).
Proof.
  induction n as [|n (IH1 & IH2 & IH3)]; [repeat split; discriminate|]. repeat split; intros s v r H q m Lm.
  - intros St. destruct m as [|m]; [lia|]. rewrite scan_S in *. assert (Lm' : (n <= m)%nat) by lia.
    destruct s as [|x s]; [cbn in H; discriminate H|].
    destruct (eat 34 (x :: s)) as [r0|] eqn:E1.
    { rewrite (eat_app _ _ q _ E1). destruct (scan_str (S (length r0)) r0) as [t r'| |] eqn:E; inv H.
      apply scan_str_sound, (str_scan_app _ _ _ q) in E.
      rewrite (scan_str_complete _ _ _ E) by lia. reflexivity. }
    rewrite (eat_none_app 34 (x :: s) q) by (assumption || discriminate).
    destruct (eat 123 (x :: s)) as [r0|] eqn:E2.
    { rewrite (eat_app _ _ q _ E2). destruct (eat 125 (skip_ws r0)) as [r'|] eqn:E; [rewrite (eat_ws_app _ _ _ q E); now inv H|].
      destruct (eat 34 (skip_ws r0)) as [r'|] eqn:E'; [|discriminate H].
      rewrite (eat_ws_app_none _ _ q (eat_nonempty _ _ _ E') E), (eat_ws_app _ _ _ q E').
      destruct (members n r') as [l r''| |] eqn:M; inv H. now rewrite (IH2 _ _ _ M q m Lm'). }
    rewrite (eat_none_app 123 (x :: s) q) by (assumption || discriminate).
    destruct (eat 91 (x :: s)) as [r0|] eqn:E3.
    { rewrite (eat_app _ _ q _ E3). destruct (eat 93 (skip_ws r0)) as [r'|] eqn:E; [rewrite (eat_ws_app _ _ _ q E); now inv H|].
      destruct (elems n (skip_ws r0)) as [l r''| |] eqn:M; inv H.
      assert (Ne : skip_ws r0 <> []). { intros X. rewrite X in M. apply (proj2 (proj2 (scan_len n))) in M. cbn in M. lia. }
      rewrite (eat_ws_app_none _ _ q Ne E), skip_ws_app by assumption. now rewrite (IH3 _ _ _ M q m Lm'). }
    rewrite (eat_none_app 91 (x :: s) q) by (assumption || discriminate).
    destruct (after t_null (x :: s)) as [t|] eqn:A1; [rewrite (after_app _ _ q _ A1); now inv H|].
    destruct (after t_true (x :: s)) as [t|] eqn:A2.
    { apply after_some in A2. inv H. cbn in A2. rewrite A2. cbn. reflexivity. }
    destruct (after t_false (x :: s)) as [t|] eqn:A3.
    { apply after_some in A3. inv H. cbn in A3. rewrite A3. cbn. reflexivity. }
    destruct (const_app _ _ _ q A1 A2 A3 H) as (-> & -> & ->).
    destruct St as [St|(c & r' & -> & St)]; [apply number_len in H as [_ H]; congruence|]. now apply number_app.
  - destruct m as [|m]; [lia|]. rewrite members_S in *. assert (Lm' : (n <= m)%nat) by lia.
    destruct (scan_str (S (length s)) s) as [key r0| |] eqn:E; try discriminate H.
    apply scan_str_sound, (str_scan_app _ _ _ q) in E. rewrite (scan_str_complete _ _ _ E) by lia.
    destruct (eat 58 (skip_ws r0)) as [r1|] eqn:E1; [|discriminate H]. rewrite (eat_ws_app _ _ _ q E1).
    destruct (scan n (skip_ws r1)) as [v' r2| |] eqn:E2; try discriminate H.
    assert (Ne : skip_ws r1 <> []). { intros X. rewrite X in E2. apply (proj1 (scan_len n)) in E2. cbn in E2. lia. }
    rewrite skip_ws_app by assumption.
    destruct (eat 125 (skip_ws r2)) as [r3|] eqn:E3.
    { rewrite (IH1 _ _ _ E2 q m Lm'); [rewrite (eat_ws_app _ _ _ q E3); now inv H|].
      right. now apply (eat_ws_stop _ _ _ E3). }
    destruct (eat 44 (skip_ws r2)) as [r3|] eqn:E4; [|discriminate H].
    rewrite (IH1 _ _ _ E2 q m Lm') by (right; now apply (eat_ws_stop _ _ _ E4)).
    rewrite (eat_ws_app_none _ _ q (eat_nonempty _ _ _ E4) E3), (eat_ws_app _ _ _ q E4).
    destruct (eat 34 (skip_ws r3)) as [r4|] eqn:E5; [|discriminate H]. rewrite (eat_ws_app _ _ _ q E5).
    destruct (members n r4) as [l r5| |] eqn:M; inv H. now rewrite (IH2 _ _ _ M q m Lm').
  - destruct m as [|m]; [lia|]. rewrite elems_S in *. assert (Lm' : (n <= m)%nat) by lia.
    destruct (scan n s) as [v' r2| |] eqn:E2; try discriminate H.
    destruct (eat 93 (skip_ws r2)) as [r3|] eqn:E3.
    { rewrite (IH1 _ _ _ E2 q m Lm'); [rewrite (eat_ws_app _ _ _ q E3); now inv H|].
      right. now apply (eat_ws_stop _ _ _ E3). }
    destruct (eat 44 (skip_ws r2)) as [r3|] eqn:E4; [|discriminate H].
    rewrite (IH1 _ _ _ E2 q m Lm') by (right; now apply (eat_ws_stop _ _ _ E4)).
    rewrite (eat_ws_app_none _ _ q (eat_nonempty _ _ _ E4) E3), (eat_ws_app _ _ _ q E4).
    destruct (elems n (skip_ws r3)) as [l r5| |] eqn:M; inv H.
    assert (Ne : skip_ws r3 <> []). { intros X. rewrite X in M. apply (proj2 (proj2 (scan_len n))) in M. cbn in M. lia. }
    rewrite skip_ws_app by assumption. now rewrite (IH3 _ _ _ M q m Lm').
Qed.

Lemma number_int z k : tail_ok k -> scan_number (print_int z ++ k) = POk (JInt z) k.
Proof.
  intros K. unfold JsonModel.scan_number.
  assert (G : exists sg c d, print_int z = sg ++ c :: d /\ (sg = [] \/ sg = [45]) /\ all_digits (c :: d) /\ (c = 48 -> d = []) /\ int_value (print_int z) = z).
  { unfold print_int. destruct (Z.ltb_spec z 0) as [L|L].
    - destruct (digits_spec (- z) ltac:(lia)) as (V & D & c & d & E & C). exists [45], c, d. rewrite E in *. repeat split; auto.
      + now intros X; apply C in X.
      + unfold int_value. rewrite eat_hd, Z.eqb_refl, V. lia.
    - destruct (digits_spec z ltac:(lia)) as (V & D & c & d & E & C). exists [], c, d. rewrite E in *. repeat split; auto.
      + now intros X; apply C in X.
      + unfold int_value. rewrite eat_hd. destruct (Z.eqb_spec c 45) as [->|]; [inversion D; discriminate|exact V]. }
  destruct G as (sg & c & d & E & Sg & D & C & V). rewrite E in *.
  rewrite <- app_assoc, scan_int_tail by (assumption || (now apply tail_digit)). rewrite tail_frac, tail_exp by assumption. now rewrite V.
Qed.

Lemma number_float t k : float_text t -> tail_ok k -> scan_number (t ++ k) = POk (JFloat (fparse t)) k.
Proof.
  intros T K. unfold JsonModel.scan_number. destruct T as [->|[->|[->|T]]]; [reflexivity..|].
  destruct T as (sg & c & d & f & e & -> & Sg & D & C & Hf & He & Nn).
  assert (E1 : scan_exp (e ++ k) = (e, k)).
  { destruct He as [->|(s & x & g & -> & Hs & Dg)]; [now apply tail_exp|].
    destruct Hs as [->|[->| ->]]; cbn [app]; unfold scan_exp; cbn [Z.eqb orb Pos.eqb].
    - inversion Dg as [|? ? Dx _]; subst. destruct ((x =? 43) || (x =? 45)) eqn:X.
      { exfalso. apply orb_true_iff in X. rewrite !Z.eqb_eq in X. destruct X as [->| ->]; discriminate Dx. }
      pose proof (span_tail (x :: g) k Dg (tail_digit _ K)) as G. cbn [app] in G. now rewrite G.
    - pose proof (span_tail (x :: g) k Dg (tail_digit _ K)) as G. cbn [app] in G. now rewrite G.
    - pose proof (span_tail (x :: g) k Dg (tail_digit _ K)) as G. cbn [app] in G. now rewrite G. }
  assert (He' : match e ++ k with [] => True | x :: _ => is_digit x = false end).
  { destruct He as [->|(s & x & g & -> & _)]; [now apply tail_digit|reflexivity]. }
  assert (E2 : scan_frac (f ++ e ++ k) = (f, e ++ k)).
  { destruct Hf as [->|(x & g & -> & Dg)].
    - destruct He as [->|(s & x & g & -> & _)]; [now apply tail_frac|reflexivity].
    - unfold scan_frac. cbn [app]. rewrite eat_hd, Z.eqb_refl.
      pose proof (span_tail (x :: g) (e ++ k) Dg He') as G. cbn [app] in G. now rewrite G. }
  rewrite <- !app_assoc, scan_int_tail; auto.
  - rewrite E2, E1. rewrite <- app_assoc. destruct f as [|x f], e as [|y e]; try reflexivity. destruct Nn; congruence.
  - destruct Hf as [->|(x & g & -> & _)]; [assumption|reflexivity].
Qed.

Lemma number_hd c s n : is_digit c = true \/ c = 45 \/ c = 78 \/ c = 73 -> scan (S n) (c :: s) = scan_number (c :: s).
Proof.
  intros C. rewrite scan_S, !eat_hd. unfold t_null, t_true, t_false.
  assert (N : forall x, In x [34; 123; 91; 110; 116; 102] -> c <> x).
  { intros x Hx ->. cbn in Hx. decompose [or] Hx; subst; try contradiction; cbn in C; decompose [or] C; discriminate. }
  assert (N1 : c =? 34 = false) by (apply Z.eqb_neq, N; cbn; auto).
  assert (N2 : c =? 123 = false) by (apply Z.eqb_neq, N; cbn; auto).
  assert (N3 : c =? 91 = false) by (apply Z.eqb_neq, N; cbn; auto).
  rewrite N1, N2, N3. rewrite !after_hd by (apply N; cbn; auto 8). reflexivity.
Qed.

(** ** Reading a printed document back *)

Definition arr_items := fix items (l : list json) := match l with
                      | [] => []
                      | [x] => print x
                      | x :: r => print x ++ [44; 32] ++ items r
                      end.
Definition obj_items := fix items (l : list (text * json)) := match l with
                      | [] => []
                      | [(k, x)] => print_str k ++ [58; 32] ++ print x
                      | (k, x) :: r => print_str k ++ [58; 32] ++ print x ++ [44; 32] ++ items r
                      end.

Lemma print_arr l : print (JArr l) = 91 :: arr_items l ++ [93].
Proof. reflexivity. Qed.
Lemma print_obj l : print (JObj l) = 123 :: obj_items l ++ [125].
Proof. reflexivity. Qed.

(** Values that survive a round trip: no adjacent surrogates forming a pair in
    a string, distinct keys, floats whose printed form denotes them. *)
Definition float_ok (f : F) : Prop := float_text (frepr f) /\ fparse (frepr f) = f.
Fixpoint json_ok (v : json) : Prop :=
  match v with
  | JNull | JBool _ | JInt _ => True
  | JFloat f => float_ok f
  | JStr s => str_ok s
  | JArr l => (fix go l := match l with [] => True | x :: r => json_ok x /\ go r end) l
  | JObj l => NoDup (map fst l) /\ (fix go l := match l with [] => True | kx :: r => str_ok (fst kx) /\ json_ok (snd kx) /\ go r end) l
  end.

Lemma json_ok_arr l : json_ok (JArr l) <-> Forall json_ok l.
Proof.
  cbn. induction l as [|x l IH]; [split; auto|]. rewrite Forall_cons_iff, <- IH. tauto.
Qed.
Lemma json_ok_obj l : json_ok (JObj l) <-> NoDup (map fst l) /\ Forall (fun kx => str_ok (fst kx) /\ json_ok (snd kx)) l.
Proof.
  cbn. apply and_iff_compat_l. induction l as [|x l IH]; [split; auto|]. rewrite Forall_cons_iff, <- IH. tauto.
Qed.

Fixpoint json_rect' (P : json -> Prop) (H0 : P JNull) (H1 : forall b, P (JBool b)) (H2 : forall z, P (JInt z)) (H3 : forall f, P (JFloat f))
  (H4 : forall s, P (JStr s)) (H5 : forall l, Forall P l -> P (JArr l)) (H6 : forall l, Forall (fun kx => P (snd kx)) l -> P (JObj l)) (v : json) : P v :=
  let go := json_rect' P H0 H1 H2 H3 H4 H5 H6 in
  match v with
  | JNull => H0 | JBool b => H1 b | JInt z => H2 z | JFloat f => H3 f | JStr s => H4 s
  | JArr l => H5 l ((fix f l : Forall P l := match l with [] => Forall_nil _ | x :: r => Forall_cons x (go x) (f r) end) l)
  | JObj l => H6 l ((fix f l : Forall (fun kx => P (snd kx)) l := match l with [] => Forall_nil _ | x :: r => Forall_cons x (go (snd x)) (f r) end) l)
  end.

Lemma float_text_hd t : float_text t -> exists c r, t = c :: r /\ (is_digit c = true \/ c = 45 \/ c = 78 \/ c = 73).
Proof.
  intros [->|[->|[->|T]]].
  1-3: eexists; eexists; split; [reflexivity|]; auto.
  destruct T as (sg & c & d & f & e & -> & [->| ->] & D & _).
  - exists c, (d ++ f ++ e). split; [reflexivity|]. inversion D; auto.
  - eexists; eexists; split; [reflexivity|]; auto.
Qed.

Lemma print_int_hd z : exists c r, print_int z = c :: r /\ (is_digit c = true \/ c = 45 \/ c = 78 \/ c = 73).
Proof.
  unfold print_int. destruct (Z.ltb_spec z 0) as [L|L]; [eexists; eexists; split; [reflexivity|]; auto|].
  destruct (digits_spec z ltac:(lia)) as (_ & D & c & d & E & _). rewrite E in *. exists c, d. split; [reflexivity|]. inversion D; auto.
Qed.

Lemma print_hd v : json_ok v -> exists c t, print v = c :: t /\ is_ws c = false /\ c <> 93 /\ c <> 125 /\ c <> 65279.
Proof.
  assert (G : forall c, (is_digit c = true \/ c = 45 \/ c = 78 \/ c = 73) -> is_ws c = false /\ c <> 93 /\ c <> 125 /\ c <> 65279).
  { intros c [D|[->|[->| ->]]]; [|repeat split; (reflexivity || lia)..]. unfold is_digit in D. apply andb_true_iff in D. rewrite !Z.leb_le in D.
    unfold is_ws. rewrite !orb_false_iff, !Z.eqb_neq. lia. }
  destruct v as [| [] | z | f | s | l | l]; intros W.
  1-3, 6-8: eexists; eexists; split; [reflexivity|]; repeat split; (reflexivity || lia).
  - destruct (print_int_hd z) as (c & r & E & C). exists c, r. auto.
  - destruct (float_text_hd _ (proj1 W)) as (c & r & E & C). exists c, r. auto.
Qed.

Lemma eqb_text_eq a b : eqb_text a b = true <-> a = b.
Proof.
  revert b. induction a as [|x a IH]; intros [|y b]; cbn; [split; auto|split; discriminate|split; discriminate|].
  rewrite andb_true_iff, Z.eqb_eq, IH. split; [now intros [-> ->]|now intros [= -> ->]].
Qed.

Lemma dict_set_fresh (d : list (text * json)) k v : ~ In k (map fst d) -> dict_set d k v = d ++ [(k, v)].
Proof.
  induction d as [|[k' v'] d IH]; intros N; cbn; [reflexivity|]. destruct (eqb_text k' k) eqn:E.
  - apply eqb_text_eq in E. subst. exfalso. apply N. now left.
  - rewrite IH; [reflexivity|]. intros H. apply N. now right.
Qed.

Lemma dict_of_nodup (l : list (text * json)) : NoDup (map fst l) -> dict_of l = l.
Proof.
  unfold dict_of. assert (G : forall l d, NoDup (map fst (d ++ l)) -> fold_left (fun d kv => dict_set d (fst kv) (snd kv)) l d = (d ++ l) :> list (text * json)).
  { clear. induction l as [|[k v] l IH]; intros d N; cbn; [now rewrite app_nil_r|].
    rewrite dict_set_fresh.
    - rewrite IH; rewrite <- app_assoc; [reflexivity|exact N].
    - rewrite map_app in N. cbn in N. apply NoDup_remove_2 in N. intros H. apply N. apply in_or_app. now left. }
  intros N. now apply (G l []).
Qed.

Lemma print_str_scan s q : str_ok s -> scan_str (S (length (flat_map escape s ++ 34 :: q))) (flat_map escape s ++ 34 :: q) = POk s q.
Proof. intros O. apply scan_str_complete; [now apply escape_scan|lia]. Qed.

Lemma print_len v : json_ok v -> (1 <= length (print v))%nat.
Proof. intros W. destruct (print_hd v W) as (c & t & -> & _). cbn. lia. Qed.

Definition vtail (v : json) (k : text) : Prop := is_num v = true -> tail_ok k.

Theorem scan_print v : json_ok v -> forall k m, vtail v k -> (2 * length (print v) < m)%nat -> scan m (print v ++ k) = POk v k.
Proof.
  induction v as [| b | z | f | s | l IH | l IH] using json_rect'; intros W k m K L; (destruct m as [|m]; [lia|]).
  - reflexivity.
  - destruct b; reflexivity.
  - cbn [JsonModel.print] in *. destruct (print_int_hd z) as (c & r & E & C). pose proof (number_int z k (K eq_refl)) as G. rewrite E in *.
    cbn [app] in *. now rewrite number_hd.
  - cbn [JsonModel.print] in *. destruct W as [T V]. destruct (float_text_hd _ T) as (c & r & E & C).
    pose proof (number_float _ k T (K eq_refl)) as G. rewrite V in G. rewrite E in *. cbn [app] in *. now rewrite number_hd.
  - cbn [JsonModel.print] in *. unfold print_str in *. cbn [app]. rewrite <- app_assoc. cbn [app]. rewrite scan_S, eat_hd, Z.eqb_refl.
    now rewrite print_str_scan.
  - rewrite json_ok_arr in W. rewrite print_arr in *. cbn [app]. rewrite <- app_assoc. cbn [app].
    rewrite scan_S. rewrite !eat_hd. cbn [Z.eqb Pos.eqb].
    destruct l as [|x0 l0].
    { reflexivity. }
    assert (Hd : skip_ws (arr_items (x0 :: l0) ++ 93 :: k) = arr_items (x0 :: l0) ++ 93 :: k /\ eat 93 (arr_items (x0 :: l0) ++ 93 :: k) = None).
    { inversion W as [|? ? W0 _]; subst. destruct (print_hd _ W0) as (c & t & E & Cw & C1 & _).
      assert (X : exists t', arr_items (x0 :: l0) = c :: t'). { cbn. rewrite E. destruct l0; cbn; eauto. }
      destruct X as (t' & ->). cbn [app]. rewrite skip_ws_hd by assumption. split; [reflexivity|]. rewrite eat_hd. apply Z.eqb_neq in C1. now rewrite C1. }
    destruct Hd as [-> ->].
    enough (G : elems m (arr_items (x0 :: l0) ++ 93 :: k) = POk (x0 :: l0) k) by now rewrite G.
    cbn [length] in L. rewrite app_length in L. cbn [length] in L.
    assert (L' : (2 * length (arr_items (x0 :: l0)) + 1 < m)%nat) by lia. clear L K.
    assert (Ne : x0 :: l0 <> []) by discriminate. revert Ne m L'. generalize (x0 :: l0) W IH. clear.
    induction l as [|x l IHl]; intros W IH Ne m L; [congruence|]. destruct m as [|m]; [lia|]. rewrite elems_S.
    inversion W as [|? ? Wx Wl]; subst. inversion IH as [|? ? Px Pl]; subst. destruct l as [|y l].
    + cbn [arr_items] in *. rewrite (Px Wx); [|intros _; reflexivity|lia]. reflexivity.
    + assert (E : arr_items (x :: y :: l) = print x ++ 44 :: 32 :: arr_items (y :: l)) by reflexivity. rewrite E in *.
      rewrite app_length in L. cbn [length] in L. rewrite <- app_assoc. cbn [app].
      rewrite (Px Wx); [|intros _; reflexivity|lia].
      rewrite skip_ws_hd, !eat_hd by reflexivity. cbn [Z.eqb Pos.eqb].
      assert (Hd : skip_ws (32 :: arr_items (y :: l) ++ 93 :: k) = arr_items (y :: l) ++ 93 :: k).
      { inversion Wl as [|? ? W0 _]; subst. destruct (print_hd _ W0) as (c & t & E' & Cw & _).
        assert (X : exists t', arr_items (y :: l) = c :: t'). { cbn. rewrite E'. destruct l; cbn; eauto. }
        destruct X as (t' & ->). change (skip_ws (32 :: ?a)) with (skip_ws a). cbn [app]. now rewrite skip_ws_hd. }
      rewrite Hd. rewrite (IHl Wl Pl); [reflexivity|discriminate|lia].
  - rewrite json_ok_obj in W. destruct W as [Nd W]. rewrite print_obj in *. cbn [app]. rewrite <- app_assoc. cbn [app].
    rewrite scan_S. rewrite !eat_hd. cbn [Z.eqb Pos.eqb].
    destruct l as [|kx0 l0].
    { reflexivity. }
    rewrite <- (dict_of_nodup _ Nd) at 2.
    assert (Hd : exists t, obj_items (kx0 :: l0) ++ 125 :: k = 34 :: t /\ members m t = POk (kx0 :: l0) k).
    2: { destruct Hd as (t & -> & M). rewrite skip_ws_hd, !eat_hd by reflexivity. cbn [Z.eqb Pos.eqb]. now rewrite M. }
    cbn [length] in L. rewrite app_length in L. cbn [length] in L.
    assert (L' : (2 * length (obj_items (kx0 :: l0)) + 1 < m)%nat) by lia. clear L K Nd.
    assert (Ne : kx0 :: l0 <> []) by discriminate. revert Ne m L'. generalize (kx0 :: l0) W IH. clear.
    induction l as [|[ky x] l IHl]; intros W IH Ne m L; [congruence|]. destruct m as [|m]; [lia|].
    inversion W as [|? ? [Wk Wx] Wl]; subst. inversion IH as [|? ? Px Pl]; subst. cbn [fst snd] in *. destruct l as [|y l].
    + assert (E : obj_items [(ky, x)] = 34 :: flat_map escape ky ++ 34 :: 58 :: 32 :: print x).
      { cbn. unfold print_str. cbn. rewrite <- app_assoc. reflexivity. }
      rewrite E in *. cbn [length] in L. rewrite app_length in L. cbn [length] in L.
      cbn [app]. eexists. split; [reflexivity|]. rewrite members_S, <- app_assoc. cbn [app]. rewrite print_str_scan by assumption.
      rewrite skip_ws_hd, eat_hd by reflexivity. cbn [Z.eqb Pos.eqb]. change (skip_ws (32 :: ?a)) with (skip_ws a).
      assert (Hd : skip_ws (print x ++ 125 :: k) = print x ++ 125 :: k).
      { destruct (print_hd _ Wx) as (c & t & E' & Cw & _). rewrite E'. cbn [app]. now rewrite skip_ws_hd. }
      rewrite Hd, (Px Wx); [reflexivity|intros _; reflexivity|lia].
    + assert (E : obj_items ((ky, x) :: y :: l) = 34 :: flat_map escape ky ++ 34 :: 58 :: 32 :: print x ++ 44 :: 32 :: obj_items (y :: l)).
      { unfold obj_items at 1. fold obj_items. unfold print_str. cbn [app]. rewrite <- !app_assoc. reflexivity. }
      rewrite E in *. cbn [length] in L. rewrite app_length in L. cbn [length] in L. rewrite app_length in L. cbn [length] in L.
      cbn [app]. eexists. split; [reflexivity|]. rewrite members_S, <- app_assoc. cbn [app]. rewrite print_str_scan by assumption.
      rewrite skip_ws_hd, eat_hd by reflexivity. cbn [Z.eqb Pos.eqb]. change (skip_ws (32 :: ?a)) with (skip_ws a).
      rewrite <- app_assoc. cbn [app].
      assert (Hd : skip_ws (print x ++ 44 :: 32 :: obj_items (y :: l) ++ 125 :: k) = print x ++ 44 :: 32 :: obj_items (y :: l) ++ 125 :: k).
      { destruct (print_hd _ Wx) as (c & t & E' & Cw & _). rewrite E'. cbn [app]. now rewrite skip_ws_hd. }
      rewrite Hd, (Px Wx); [|intros _; reflexivity|lia].
      rewrite skip_ws_hd, !eat_hd by reflexivity. cbn [Z.eqb Pos.eqb]. change (skip_ws (32 :: ?a)) with (skip_ws a).
      destruct (IHl Wl Pl ltac:(discriminate) m ltac:(lia)) as (t & -> & M).
      rewrite skip_ws_hd, eat_hd by reflexivity. cbn [Z.eqb Pos.eqb]. now rewrite M.
Qed.

Theorem loads_print v : json_ok v -> JsonModel.loads fparse (print v) = POk v [].
Proof.
  intros W. unfold loads. destruct (print_hd v W) as (c & t & E & Cw & _ & _ & C).
  assert (E1 : eat 65279 (print v) = None) by (rewrite E, eat_hd; apply Z.eqb_neq in C; now rewrite C).
  assert (E2 : skip_ws (print v) = print v) by (rewrite E; now apply skip_ws_hd).
  rewrite E1, E2. pose proof (scan_print v W [] (2 * length (print v) + 1)) as G. rewrite app_nil_r in G.
  rewrite G; [reflexivity|intros _; exact I|lia].
Qed.

Theorem loads_no_fuel s : JsonModel.loads fparse s <> PFuel.
Proof.
  unfold loads. destruct (eat 65279 s); [discriminate|].
  pose proof (skip_ws_len s). pose proof (proj1 (scan_fuel (2 * length s + 1)) (skip_ws s) ltac:(lia)).
  destruct (scan (2 * length s + 1) (skip_ws s)) as [v r| |]; [destruct (skip_ws r); discriminate|discriminate|congruence].
Qed.

(** Any proper prefix of the document of a dictionary is rejected. *)
Theorem loads_prefix l p q : json_ok (JObj l) -> print (JObj l) = p ++ q -> q <> [] -> JsonModel.loads fparse p = PBad.
Proof.
  intros W E Nq. pose proof (loads_no_fuel p) as Nf. unfold loads in *.
  destruct (eat 65279 p) eqn:E0; [reflexivity|].
  destruct (scan (2 * length p + 1) (skip_ws p)) as [v r| |] eqn:Sc; [|reflexivity|congruence].
  destruct (skip_ws r) as [|x r'] eqn:Sr; [|reflexivity]. exfalso.
  rewrite print_obj in E. destruct p as [|c p]; [cbn in Sc; discriminate Sc|]. cbn [app] in E. injection E as <- E.
  rewrite skip_ws_hd in Sc by reflexivity.
  assert (Nn : is_num v = false).
  { rewrite Nat.add_1_r in Sc. rewrite scan_S, !eat_hd in Sc. cbn [Z.eqb Pos.eqb] in Sc.
    destruct (eat 125 (skip_ws p)); [now injection Sc as <- _|]. destruct (eat 34 (skip_ws p)); [|discriminate Sc].
    destruct (members _ t); try discriminate Sc. now injection Sc as <- _. }
  set (n := S (2 * length (print (JObj l)) + (2 * length (123%Z :: p) + 1))%nat).
  pose proof (proj1 (scan_app _) _ _ _ Sc q n ltac:(unfold n; lia) (or_introl Nn)) as G.
  pose proof (scan_print (JObj l) W [] n ltac:(intros _; exact I) ltac:(unfold n; lia)) as G'.
  rewrite app_nil_r, print_obj in G'. cbn [app] in G. rewrite <- E in G. rewrite G in G'. injection G' as _ G'.
  apply app_eq_nil in G' as [_ G']. contradiction.
Qed.

End SCAN.
