(** Rounding of SpecFloat operations: division and conversion of integers are monotone. *)
From Coq Require Import ZArith Floats.SpecFloat Bool Lia.
From Verif Require Import GoFloat.
Local Open Scope Z_scope.

Notation fexp := (SpecFloat.fexp fprec femax).
Lemma fexp_max e : fexp e = Z.max (e - 53) (-1074).
Proof. reflexivity. Qed.

Lemma pow_pos e : 0 <= e -> 0 < 2 ^ e.
Proof. intro. apply Z.pow_pos_nonneg; lia. Qed.
Lemma pow_split a b : 0 <= a -> 0 <= b -> 2 ^ (a + b) = 2 ^ a * 2 ^ b.
Proof. intros. apply Z.pow_add_r; lia. Qed.
Lemma pow_le a b : a <= b -> 2 ^ a <= 2 ^ b.
Proof. intros. apply Z.pow_le_mono_r; lia. Qed.

(** ** Number of binary digits *)
Lemma digits_pos p : 2 ^ (Zpos (digits2_pos p) - 1) <= Zpos p < 2 ^ Zpos (digits2_pos p).
Proof.
  induction p as [p IH|p IH|]; cbn [digits2_pos]; [| |cbn; lia];
    rewrite Pos2Z.inj_succ; unfold Z.succ;
    replace (Zpos (digits2_pos p) + 1 - 1) with (Zpos (digits2_pos p) - 1 + 1) by ring;
    rewrite !(pow_split _ 1) by lia; change (2 ^ 1) with 2; lia.
Qed.
Lemma digits_nonneg m : 0 <= m -> m < 2 ^ Zdigits2 m.
Proof. destruct m as [|p|p]; cbn [Zdigits2]; intros; [cbn; lia|apply digits_pos|lia]. Qed.
Lemma digits_low m : 0 < m -> 2 ^ (Zdigits2 m - 1) <= m.
Proof. destruct m as [|p|p]; cbn [Zdigits2]; intros; [lia|apply digits_pos|lia]. Qed.
Lemma digits_ge m : 0 <= m -> 0 <= Zdigits2 m.
Proof. destruct m; cbn; lia. Qed.
Lemma digits_gt m : 0 < m -> 1 <= Zdigits2 m.
Proof. destruct m; cbn; lia. Qed.
(** the digits are determined by the bounds *)
Lemma digits_unique m d : 0 < m -> 1 <= d -> 2 ^ (d - 1) <= m < 2 ^ d -> Zdigits2 m = d.
Proof.
  intros Hm Hd [H1 H2]. pose proof (digits_nonneg m ltac:(lia)). pose proof (digits_low m Hm). pose proof (digits_gt m Hm).
  assert (Zdigits2 m - 1 < d). { apply (Z.pow_lt_mono_r_iff 2); lia. }
  assert (d - 1 < Zdigits2 m). { apply (Z.pow_lt_mono_r_iff 2); lia. }
  lia.
Qed.
Lemma digits_le m d : 0 <= m -> 0 <= d -> m < 2 ^ d -> Zdigits2 m <= d.
Proof.
  intros Hm Hd H. destruct (Z.eq_dec m 0) as [->|]; [cbn; lia|]. pose proof (digits_low m ltac:(lia)).
  assert (Zdigits2 m - 1 < d). { apply (Z.pow_lt_mono_r_iff 2); [lia|lia|]. lia. } lia.
Qed.

(** ** [N] lies in the cell [m*u, (m+1)*u) at the given place *)
Definition in_cell (N u m : Z) (l : location) : Prop :=
  match l with
  | loc_Exact => N = m * u
  | loc_Inexact Lt => m * u < N /\ 2 * N < (2 * m + 1) * u
  | loc_Inexact Eq => 2 * N = (2 * m + 1) * u
  | loc_Inexact Gt => (2 * m + 1) * u < 2 * N /\ N < (m + 1) * u
  end.
Lemma cell_bounds N u m l : 0 < u -> in_cell N u m l -> m * u <= N < (m + 1) * u.
Proof. intros Hu H. destruct l as [|[]]; cbn [in_cell] in H; nia. Qed.
Lemma cell_scale N u m l a : 0 < a -> in_cell N u m l -> in_cell (N * a) (u * a) m l.
Proof.
  intros Ha H. destruct l as [|[]]; cbn [in_cell] in *.
  - subst. ring.
  - nia.
  - split; nia.
  - split; nia.
Qed.
Lemma record_of_loc m l : shr_m (shr_record_of_loc m l) = m /\ loc_of_shr_record (shr_record_of_loc m l) = l.
Proof. destruct l as [|[]]; auto. Qed.

Lemma shr_1_cell N u r : 0 < u -> 0 <= shr_m r -> in_cell N u (shr_m r) (loc_of_shr_record r) ->
  0 <= shr_m (shr_1 r) /\ in_cell N (2 * u) (shr_m (shr_1 r)) (loc_of_shr_record (shr_1 r)).
Proof.
  intros Hu. destruct r as [m b s]. cbn [shr_m]. intros Hm H. destruct m as [|p|p]; [| |lia].
  - destruct b, s; cbn [shr_1 shr_m loc_of_shr_record orb in_cell] in *; split; lia.
  - destruct p as [p|p|]; (split; [cbn; lia|]); destruct b, s; cbn [shr_1 shr_m loc_of_shr_record orb in_cell] in *;
      try rewrite (Pos2Z.inj_xI p) in H; try rewrite (Pos2Z.inj_xO p) in H; try (generalize dependent (Zpos p); intros z H1); try nia.
Qed.
Lemma iter_shr N : forall n u r, 0 < u -> 0 <= shr_m r -> in_cell N u (shr_m r) (loc_of_shr_record r) ->
  0 <= shr_m (iter_pos shr_1 n r) /\ in_cell N (u * 2 ^ Zpos n) (shr_m (iter_pos shr_1 n r)) (loc_of_shr_record (iter_pos shr_1 n r)).
Proof.
  induction n as [n IH|n IH|]; intros u r Hu Hm H; cbn [iter_pos].
  - destruct (shr_1_cell N u r Hu Hm H) as [H1 H2]. destruct (IH (2 * u) _ ltac:(lia) H1 H2) as [H3 H4].
    assert (0 < 2 ^ Zpos n) by (apply pow_pos; lia).
    destruct (IH (2 * u * 2 ^ Zpos n) _ ltac:(nia) H3 H4) as [H5 H6]. split; auto.
    replace (u * 2 ^ Zpos n~1) with (2 * u * 2 ^ Zpos n * 2 ^ Zpos n); auto.
    replace (Zpos n~1) with (Zpos n + Zpos n + 1) by lia. rewrite !pow_split by lia. change (2 ^ 1) with 2. ring.
  - destruct (IH u _ Hu Hm H) as [H3 H4]. assert (0 < 2 ^ Zpos n) by (apply pow_pos; lia).
    destruct (IH (u * 2 ^ Zpos n) _ ltac:(nia) H3 H4) as [H5 H6]. split; auto.
    replace (u * 2 ^ Zpos n~0) with (u * 2 ^ Zpos n * 2 ^ Zpos n); auto.
    replace (Zpos n~0) with (Zpos n + Zpos n) by lia. rewrite !pow_split by lia. ring.
  - change (2 ^ 1) with 2. rewrite Z.mul_comm. apply shr_1_cell; auto.
Qed.

Lemma shr_fexp_cell N D k m e l : 0 < D -> k <= e -> 0 <= m -> in_cell N (D * 2 ^ (e - k)) m l -> e <= fexp (Zdigits2 m + e) ->
  exists r, shr_fexp fprec femax m e l = (r, fexp (Zdigits2 m + e)) /\ 0 <= shr_m r /\
    in_cell N (D * 2 ^ (fexp (Zdigits2 m + e) - k)) (shr_m r) (loc_of_shr_record r).
Proof.
  intros HD Hk Hm HC HE. unfold shr_fexp. set (E := fexp (Zdigits2 m + e)) in *.
  destruct (record_of_loc m l) as [R1 R2]. assert (HC' : in_cell N (D * 2 ^ (e - k)) (shr_m (shr_record_of_loc m l)) (loc_of_shr_record (shr_record_of_loc m l))) by (rewrite R1, R2; auto).
  unfold shr. destruct (E - e) as [|n|n] eqn:En; [| |lia].
  - assert (E = e) as -> by lia. eexists. split; [reflexivity|]. rewrite R1. split; auto. rewrite R2. auto.
  - assert (0 < 2 ^ (e - k)) by (apply pow_pos; lia). destruct (iter_shr N n (D * 2 ^ (e - k)) _ ltac:(nia) ltac:(rewrite R1; auto) HC') as [H1 H2].
    eexists. split; [f_equal; lia|]. split; auto.
    replace (D * 2 ^ (E - k)) with (D * 2 ^ (e - k) * 2 ^ Zpos n); auto. rewrite <- Z.mul_assoc, <- pow_split by lia. f_equal. f_equal. lia.
Qed.

(** ** Nearest, ties to even *)
Definition nearest (N u m : Z) : Prop := 2 * Z.abs (N - m * u) <= u /\ (2 * Z.abs (N - m * u) = u -> Z.Even m).
Lemma round_nearest N u m l : 0 < u -> in_cell N u m l -> nearest N u (round_nearest_even m l).
Proof.
  intros Hu H. unfold nearest, round_nearest_even. destruct l as [|[]]; cbn [in_cell] in H.
  - rewrite H. replace (m * u - m * u) with 0 by ring. cbn. split; lia.
  - destruct (Z.even m) eqn:E.
    + apply Z.even_spec in E. split; [|auto]. lia.
    + assert (Z.Even (m + 1)). { apply Z.even_spec. rewrite Z.even_add, E. reflexivity. } split; [|auto]. lia.
  - split; lia.
  - split; lia.
Qed.
Lemma nearest_mono N N' u a b : 0 < u -> N <= N' -> nearest N u a -> nearest N' u b -> a <= b.
Proof.
  intros Hu HN [H1 H2] [H3 H4]. destruct (Z_le_gt_dec a b) as [|G]; auto. exfalso.
  assert (a * u >= (b + 1) * u) by nia.
  assert (E : N = N' /\ 2 * (a * u - N) = u /\ 2 * (N - b * u) = u) by lia. destruct E as (<- & E1 & E2).
  assert (a = b + 1) by nia. subst a.
  destruct (H2 ltac:(lia)) as [x Hx]. destruct (H4 ltac:(lia)) as [y Hy]. lia.
Qed.
Lemma nearest_exact u a : 0 < u -> nearest (a * u) u a.
Proof. intro. unfold nearest. replace (a * u - a * u) with 0 by ring. cbn. split; lia. Qed.

(** ** The float [f] stands for M * 2^e *)
Definition canonical (m : positive) (e : Z) : Prop := fexp (Zpos (digits2_pos m) + e) = e.
Definition stands (f : f64) (M e : Z) : Prop :=
  (M = 0 /\ f = S754_zero false) \/
  (exists m e', f = S754_finite false m e' /\ canonical m e' /\ e' <= 971 /\ e <= e' /\ M = Zpos m * 2 ^ (e' - e)) \/
  (f = S754_infinity false /\ 0 < M /\ 1025 <= Zdigits2 M + e).

Lemma fexp_mono a b : a <= b -> fexp a <= fexp b.
Proof. rewrite !fexp_max. lia. Qed.

(** [round_as N D k t r E]: the quotient N/D * 2^k, of magnitude t, is rounded to r * 2^E *)
Definition round_as (N D k t r E : Z) : Prop :=
  E = fexp t /\ k <= E /\ k <= t /\ N < D * 2 ^ (t - k) /\ (-1074 < E -> k <= t - 1 /\ D * 2 ^ (t - 1 - k) <= N) /\ nearest N (D * 2 ^ (E - k)) r /\ 0 <= r.

Lemma round_aux N D k m e l : 0 < D -> k <= e -> 0 <= m -> in_cell N (D * 2 ^ (e - k)) m l -> e <= fexp (Zdigits2 m + e) ->
  exists r, round_as N D k (Zdigits2 m + e) r (fexp (Zdigits2 m + e)) /\
    stands (binary_round_aux fprec femax false m e l) r (fexp (Zdigits2 m + e)).
Proof.
  intros HD Hk Hm HC HE. destruct (shr_fexp_cell N D k m e l HD Hk Hm HC HE) as (mr & ES & HR & HC').
  set (t := Zdigits2 m + e) in *. set (E := fexp t) in *.
  assert (HU : 0 < D * 2 ^ (E - k)) by (assert (0 < 2 ^ (E - k)) by (apply pow_pos; lia); nia).
  set (r := round_nearest_even (shr_m mr) (loc_of_shr_record mr)).
  pose proof (round_nearest N _ _ _ HU HC') as HN. fold r in HN.
  assert (Hr : 0 <= r). { unfold r, round_nearest_even. destruct (loc_of_shr_record mr) as [|[]]; try lia. destruct (Z.even _); lia. }
  assert (Hue : 0 < D * 2 ^ (e - k)) by (assert (0 < 2 ^ (e - k)) by (apply pow_pos; lia); nia).
  destruct (cell_bounds N _ m l Hue HC) as [B1 B2].
  pose proof (digits_ge m Hm) as Hd.
  assert (HT : N < D * 2 ^ (t - k)).
  { pose proof (digits_nonneg m Hm). replace (t - k) with (Zdigits2 m + (e - k)) by (unfold t; ring). rewrite pow_split by lia.
    apply Z.lt_le_trans with ((m + 1) * (D * 2 ^ (e - k))); auto.
    replace (D * (2 ^ Zdigits2 m * 2 ^ (e - k))) with (2 ^ Zdigits2 m * (D * 2 ^ (e - k))) by ring. apply Z.mul_le_mono_nonneg_r; lia. }
  assert (HL : -1074 < E -> k <= t - 1 /\ D * 2 ^ (t - 1 - k) <= N).
  { intro H. assert (0 < m). { destruct (Z.eq_dec m 0) as [->|]; [|lia]. cbn [Zdigits2] in t. unfold E in *. rewrite fexp_max in *. lia. }
    pose proof (digits_low m H0). pose proof (digits_gt m H0). split; [lia|].
    replace (t - 1 - k) with (Zdigits2 m - 1 + (e - k)) by (unfold t; ring). rewrite pow_split by lia.
    apply Z.le_trans with (m * (D * 2 ^ (e - k))); auto.
    replace (D * (2 ^ (Zdigits2 m - 1) * 2 ^ (e - k))) with (2 ^ (Zdigits2 m - 1) * (D * 2 ^ (e - k))) by ring. apply Z.mul_le_mono_nonneg_r; lia. }
  exists r. split. { unfold round_as. split; [reflexivity|]. split; [lia|]. split; [lia|]. auto. }
  unfold binary_round_aux. rewrite ES. fold r.
  assert (HE1 : -1074 <= E) by (unfold E; rewrite fexp_max; lia).
  assert (HEt : t - 53 <= E) by (unfold E; rewrite fexp_max; lia).
  (* r has at most 53 digits, or is 2^53 *)
  assert (HM : r <= 2 ^ 53).
  { assert (B : N <= 2 ^ 53 * (D * 2 ^ (E - k))).
    { apply Z.le_trans with (D * 2 ^ (t - k)); [lia|]. replace (2 ^ 53 * (D * 2 ^ (E - k))) with (D * (2 ^ 53 * 2 ^ (E - k))) by ring.
      rewrite <- pow_split by lia. apply Z.mul_le_mono_nonneg_l; [lia|]. apply pow_le. lia. }
    exact (nearest_mono _ _ _ _ _ HU B HN (nearest_exact _ _ HU)). }
  assert (HM' : -1074 < E -> 2 ^ 52 <= r).
  { intro H. destruct (HL H) as [K B]. assert (t = E + 53) by (unfold E in *; rewrite fexp_max in *; lia).
    replace (t - 1 - k) with (52 + (E - k)) in B by lia. rewrite pow_split in B by lia.
    replace (D * (2 ^ 52 * 2 ^ (E - k))) with (2 ^ 52 * (D * 2 ^ (E - k))) in B by ring.
    exact (nearest_mono _ _ _ _ _ HU B (nearest_exact _ _ HU) HN). }
  unfold stands. destruct (Z.eq_dec r 0) as [R0|R0].
  { left. split; auto. rewrite R0. unfold shr_fexp. cbn [Zdigits2]. rewrite Z.add_0_l.
    assert (fexp E - E <= 0) by (rewrite fexp_max; lia). unfold shr. destruct (fexp E - E); try reflexivity. lia. }
  right. destruct (Z.eq_dec r (2 ^ 53)) as [R1|R1].
  - rewrite R1. assert (X : shr_fexp fprec femax (2 ^ 53) E loc_Exact = (Build_shr_record (2 ^ 52) false false, E + 1)).
    { unfold shr_fexp. replace (fexp (Zdigits2 (2 ^ 53) + E) - E) with 1. { reflexivity. } change (Zdigits2 (2 ^ 53)) with 54. rewrite fexp_max. lia. }
    rewrite X. change (shr_m {| shr_m := 2 ^ 52; shr_r := false; shr_s := false |}) with (Zpos 4503599627370496).
    change (femax - fprec) with 971. cbv iota beta. destruct (Zle_bool (E + 1) 971) eqn:EQ.
    + left. exists 4503599627370496%positive, (E + 1). split; auto. apply Zle_bool_imp_le in EQ.
      split; [unfold canonical; rewrite fexp_max; cbn [digits2_pos Pos.succ]; lia|]. split; auto. split; [lia|].
      replace (E + 1 - E) with 1 by ring. reflexivity.
    + right. split; auto. split; [reflexivity|]. change (Zdigits2 (2 ^ 53)) with 54. assert (~ E + 1 <= 971) by (intro H; apply Zle_imp_le_bool in H; congruence). lia.
  - assert (Hlt : r < 2 ^ 53) by lia. pose proof (digits_le r 53 Hr ltac:(lia) Hlt) as Hdr.
    assert (X : shr_fexp fprec femax r E loc_Exact = (Build_shr_record r false false, E)).
    { unfold shr_fexp. assert (fexp (Zdigits2 r + E) - E <= 0) by (rewrite fexp_max; lia). unfold shr. destruct (fexp (Zdigits2 r + E) - E); try reflexivity. lia. }
    rewrite X. cbn [shr_m]. destruct r as [|p|p] eqn:Er; [lia| |lia]. change (femax - fprec) with 971.
    assert (Hdp : -1074 < E -> Zdigits2 (Zpos p) = 53). { intro H. apply digits_unique; [lia|lia|]. split; [apply HM'; auto|auto]. }
    destruct (Zle_bool E 971) eqn:EQ.
    + left. exists p, E. split; auto. apply Zle_bool_imp_le in EQ. cbn [Zdigits2] in *. repeat split; auto; try lia.
      * unfold canonical. rewrite fexp_max. destruct (Z.eq_dec E (-1074)); [lia|]. rewrite (Hdp ltac:(lia)). lia.
      * rewrite Z.sub_diag. change (2 ^ 0) with 1. ring.
    + right. split; auto. split; [lia|]. assert (~ E <= 971) by (intro H; apply Zle_imp_le_bool in H; congruence). rewrite Hdp by lia. lia.
Qed.

(** ** Order *)
Lemma round_as_mono N N' D k t r E t' r' E' : 0 < D -> N <= N' -> round_as N D k t r E -> round_as N' D k t' r' E' ->
  r * 2 ^ (E - k) <= r' * 2 ^ (E' - k).
Proof.
  intros HD HN (HE & Hk & Ht & HT & HL & HR & H0) (HE' & Hk' & Ht' & HT' & HL' & HR' & H0').
  assert (HP : forall e, k <= e -> 0 < 2 ^ (e - k)) by (intros; apply pow_pos; lia).
  assert (HU : forall e, k <= e -> 0 < D * 2 ^ (e - k)) by (intros e He; specialize (HP e He); nia).
  destruct (Z.compare_spec E E') as [EE|EE|EE].
  - subst E'. rewrite EE in *. apply Z.mul_le_mono_nonneg_r; [specialize (HP _ Hk'); lia|].
    exact (nearest_mono _ _ _ _ _ (HU _ Hk') HN HR HR').
  - assert (G : t < t'). { destruct (Z_lt_ge_dec t t'); auto. exfalso. pose proof (fexp_mono t' t ltac:(lia)). lia. }
    assert (E1 : -1074 < E'). { rewrite fexp_max in HE. lia. }
    destruct (HL' E1) as [K1 B1]. assert (HT1 : t' = E' + 53) by (rewrite fexp_max in HE'; lia).
    assert (X : r <= 2 ^ (t' - 1 - E)).
    { apply (nearest_mono N (2 ^ (t' - 1 - E) * (D * 2 ^ (E - k))) (D * 2 ^ (E - k)) _ _ (HU _ Hk)); auto; [|apply nearest_exact; auto].
      replace (2 ^ (t' - 1 - E) * (D * 2 ^ (E - k))) with (D * (2 ^ (t' - 1 - E) * 2 ^ (E - k))) by ring. rewrite <- pow_split by lia.
      apply Z.le_trans with (D * 2 ^ (t - k)); [lia|]. apply Z.mul_le_mono_nonneg_l; [lia|]. apply pow_le. lia. }
    assert (Y : 2 ^ 52 <= r').
    { apply (nearest_mono (2 ^ 52 * (D * 2 ^ (E' - k))) N' (D * 2 ^ (E' - k)) _ _ (HU _ Hk')); auto; [|apply nearest_exact; auto].
      replace (2 ^ 52 * (D * 2 ^ (E' - k))) with (D * (2 ^ 52 * 2 ^ (E' - k))) by ring. rewrite <- pow_split by lia.
      replace (52 + (E' - k)) with (t' - 1 - k) by lia. auto. }
    apply Z.le_trans with (2 ^ (t' - 1 - E) * 2 ^ (E - k)). { apply Z.mul_le_mono_nonneg_r; [specialize (HP _ Hk); lia|auto]. }
    rewrite <- pow_split by lia. replace (t' - 1 - E + (E - k)) with (52 + (E' - k)) by lia. rewrite pow_split by lia.
    apply Z.mul_le_mono_nonneg_r; [specialize (HP _ Hk'); lia|auto].
  - exfalso. assert (G : t' < t). { destruct (Z_lt_ge_dec t' t); auto. exfalso. pose proof (fexp_mono t t' ltac:(lia)). lia. }
    assert (E1 : -1074 < E). { rewrite fexp_max in HE'. lia. } destruct (HL E1) as [K1 B1].
    assert (D * 2 ^ (t' - k) <= D * 2 ^ (t - 1 - k)). { apply Z.mul_le_mono_nonneg_l; [lia|]. apply pow_le. lia. } lia.
Qed.

Lemma canonical_bounds m e : canonical m e -> -1074 <= e /\ Zpos m < 2 ^ 53 /\ (-1074 < e -> 2 ^ 52 <= Zpos m).
Proof.
  unfold canonical. rewrite fexp_max. intro H. pose proof (digits_pos m) as [B1 B2]. split; [lia|]. split.
  - apply Z.lt_le_trans with (1 := B2). apply pow_le. lia.
  - intro H1. apply Z.le_trans with (2 := B1). apply pow_le. lia.
Qed.
Lemma compare_finite m e m' e' : SFcompare (S754_finite false m e) (S754_finite false m' e') =
  Some (match e ?= e' with Lt => Lt | Gt => Gt | Eq => (m ?= m')%positive end).
Proof. reflexivity. Qed.
Lemma le_finite m e m' e' k : canonical m e -> canonical m' e' -> k <= e -> k <= e' ->
  (fleb (S754_finite false m e) (S754_finite false m' e') = true <-> Zpos m * 2 ^ (e - k) <= Zpos m' * 2 ^ (e' - k)).
Proof.
  intros HC HC' Hk Hk'. unfold fleb, SFleb. rewrite compare_finite. destruct (canonical_bounds _ _ HC) as (A1 & A2 & A3). destruct (canonical_bounds _ _ HC') as (B1 & B2 & B3).
  assert (P1 : forall e, k <= e -> 0 < 2 ^ (e - k)) by (intros; apply pow_pos; lia).
  destruct (Z.compare_spec e e') as [<-|H|H].
  - pose proof (P1 e Hk). destruct (Pos.compare_spec m m') as [<-|H1|H1]; (split; intro G; auto; try discriminate); nia.
  - split; auto. intros _. specialize (B3 ltac:(lia)). apply Z.le_trans with (2 ^ 53 * 2 ^ (e - k)).
    + apply Z.mul_le_mono_nonneg_r; [specialize (P1 e Hk); lia|lia].
    + rewrite <- pow_split by lia. apply Z.le_trans with (2 ^ 52 * 2 ^ (e' - k)).
      * rewrite <- pow_split by lia. apply pow_le. lia.
      * apply Z.mul_le_mono_nonneg_r; [specialize (P1 e' Hk'); lia|lia].
  - split; [discriminate|]. intro G. exfalso. specialize (A3 ltac:(lia)).
    assert (2 ^ 52 * 2 ^ (e - k) <= Zpos m * 2 ^ (e - k)) by (apply Z.mul_le_mono_nonneg_r; [specialize (P1 e Hk); lia|lia]).
    assert (Zpos m' * 2 ^ (e' - k) < 2 ^ 53 * 2 ^ (e' - k)) by (apply Z.mul_lt_mono_pos_r; [apply P1; auto|lia]).
    rewrite <- pow_split in * by lia. assert (2 ^ (53 + (e' - k)) <= 2 ^ (52 + (e - k))) by (apply pow_le; lia). lia.
Qed.

Lemma stands_le f f' M e M' e' k : k <= e -> k <= e' -> stands f M e -> stands f' M' e' -> M * 2 ^ (e - k) <= M' * 2 ^ (e' - k) -> fleb f f' = true.
Proof.
  intros Hk Hk' S1 S2 H. assert (P1 : forall e, k <= e -> 0 < 2 ^ (e - k)) by (intros; apply pow_pos; lia).
  pose proof (P1 e Hk). pose proof (P1 e' Hk').
  destruct S1 as [(-> & ->)|[(m & x & -> & C & Cx & Hx & ->)|(-> & HM & HB)]];
  destruct S2 as [(-> & ->)|[(m' & x' & -> & C' & Cx' & Hx' & ->)|(-> & HM' & HB')]]; try reflexivity.
  - exfalso. pose proof (pow_pos (x - e) ltac:(lia)). nia.
  - rewrite <- !Z.mul_assoc, <- !pow_split in H by lia. apply (le_finite m x m' x' k); auto; try lia.
    replace (x - e + (e - k)) with (x - k) in H by ring. replace (x' - e' + (e' - k)) with (x' - k) in H by ring. auto.
  - exfalso. nia.
  - exfalso. rewrite <- !Z.mul_assoc, <- !pow_split in H by lia. replace (x' - e' + (e' - k)) with (x' - k) in H by ring.
    destruct (canonical_bounds _ _ C') as (_ & B2 & _). pose proof (digits_low M HM). pose proof (digits_gt M HM).
    assert (2 ^ (Zdigits2 M - 1) * 2 ^ (e - k) <= M * 2 ^ (e - k)) by (apply Z.mul_le_mono_nonneg_r; lia).
    assert (Zpos m' * 2 ^ (x' - k) < 2 ^ 53 * 2 ^ (x' - k)) by (apply Z.mul_lt_mono_pos_r; [apply P1; lia|lia]).
    rewrite <- pow_split in * by lia. assert (2 ^ (53 + (x' - k)) <= 2 ^ (Zdigits2 M - 1 + (e - k))) by (apply pow_le; lia). lia.
Qed.

(** ** Values that occur: not negative, not NaN, canonical *)
Definition proper (f : f64) : Prop :=
  match f with
  | S754_zero false | S754_infinity false => True
  | S754_finite false m e => canonical m e /\ e <= 971
  | _ => False
  end.
Lemma stands_proper f M e : stands f M e -> proper f.
Proof. intros [(_ & ->)|[(m & x & -> & C & Cx & _)|(-> & _)]]; cbn; auto. Qed.

(** ** Division *)
Lemma location_cell N u q r : 0 < u -> 0 <= r < u -> N = q * u + r -> in_cell N u q (new_location u r).
Proof.
  intros Hu Hr ->. unfold new_location. destruct (Z.even u) eqn:E.
  - unfold new_location_even. destruct (Zeq_bool r 0) eqn:E0; [apply Zeq_bool_eq in E0; cbn [in_cell]; lia|].
    apply Zeq_bool_neq in E0. destruct (Z.compare_spec (2 * r) u); cbn [in_cell]; nia.
  - assert (HO : Z.Odd u). { apply Z.odd_spec. rewrite <- Z.negb_even, E. reflexivity. } destruct HO as [h Hh].
    unfold new_location_odd. destruct (Zeq_bool r 0) eqn:E0; [apply Zeq_bool_eq in E0; cbn [in_cell]; lia|].
    apply Zeq_bool_neq in E0. destruct (Z.compare_spec (2 * r + 1) u); cbn [in_cell]; nia.
Qed.
Lemma div_core m1 e1 m2 e2 : exists q e l, SFdiv_core_binary fprec femax (Zpos m1) e1 (Zpos m2) e2 = (q, e, l) /\ 0 <= q /\ e <= e1 - e2 /\
  e <= fexp (Zdigits2 q + e) /\ forall k, k <= e -> in_cell (Zpos m1 * 2 ^ (e1 - e2 - k)) (Zpos m2 * 2 ^ (e - k)) q l.
Proof.
  unfold SFdiv_core_binary. set (d1 := Zdigits2 (Zpos m1)). set (d2 := Zdigits2 (Zpos m2)).
  set (e := Z.min (fexp (d1 + e1 - (d2 + e2))) (e1 - e2)). set (s := e1 - e2 - e).
  assert (Hs : 0 <= s) by lia.
  assert (EM : match s with Z0 => Zpos m1 | Zpos _ => Z.shiftl (Zpos m1) s | Zneg _ => Z0 end = Zpos m1 * 2 ^ s).
  { destruct s as [|p|p] eqn:Es; [cbn; lia| |lia]. apply Z.shiftl_mul_pow2. lia. }
  rewrite EM. pose proof (Z_div_mod (Zpos m1 * 2 ^ s) (Zpos m2) ltac:(lia)) as HD. destruct (Z.div_eucl (Zpos m1 * 2 ^ s) (Zpos m2)) as [q r].
  destruct HD as [HD HB]. exists q, e, (new_location (Zpos m2) r). split; auto.
  assert (P1 : 0 < 2 ^ s) by (apply pow_pos; lia).
  assert (Hq : 0 <= q) by nia. split; auto. split; [lia|]. split.
  - apply Z.le_trans with (fexp (d1 + e1 - (d2 + e2))); [lia|]. apply fexp_mono.
    destruct (Z_le_gt_dec (d1 + s - d2) 0) as [G|G]. { pose proof (digits_ge q Hq). lia. }
    assert (B1 : 2 ^ (d1 - 1) <= Zpos m1) by (apply digits_low; lia). assert (B2 : Zpos m2 < 2 ^ d2) by (apply digits_nonneg; lia).
    assert (1 <= d1) by (apply digits_gt; lia). assert (1 <= d2) by (apply digits_gt; lia).
    assert (BQ : 2 ^ (d1 + s - d2 - 1) <= q).
    { assert (2 ^ (d1 - 1) * 2 ^ s <= Zpos m1 * 2 ^ s) by nia. rewrite <- pow_split in H1 by lia.
      replace (d1 - 1 + s) with (d1 + s - d2 - 1 + d2) in H1 by ring. rewrite pow_split in H1 by lia.
      destruct (Z_le_gt_dec (2 ^ (d1 + s - d2 - 1)) q) as [|G1]; auto. exfalso.
      assert ((q + 1) * Zpos m2 <= 2 ^ (d1 + s - d2 - 1) * Zpos m2) by nia.
      assert (2 ^ (d1 + s - d2 - 1) * Zpos m2 < 2 ^ (d1 + s - d2 - 1) * 2 ^ d2) by (apply Z.mul_lt_mono_pos_l; auto; apply pow_pos; lia). nia. }
    assert (Hq0 : 0 < q) by (assert (0 < 2 ^ (d1 + s - d2 - 1)) by (apply pow_pos; lia); lia).
    assert (d1 + s - d2 - 1 < Zdigits2 q). { apply (Z.pow_lt_mono_r_iff 2); [lia|apply digits_ge; lia|]. pose proof (digits_nonneg q Hq). lia. }
    lia.
  - intros k Hk. replace (e1 - e2 - k) with (s + (e - k)) by lia. rewrite pow_split by lia. rewrite Z.mul_assoc. apply cell_scale; [apply pow_pos; lia|].
    apply location_cell; lia.
Qed.

Lemma fdiv_mono x x' m2 e2 : proper x -> proper x' -> fleb x x' = true ->
  proper (fdiv x (S754_finite false m2 e2)) /\ fleb (fdiv x (S754_finite false m2 e2)) (fdiv x' (S754_finite false m2 e2)) = true.
Proof.
  intros HP HP' HL.
  assert (HD : forall m1 e1, exists q e l, fdiv (S754_finite false m1 e1) (S754_finite false m2 e2) = binary_round_aux fprec femax false q e l /\
    0 <= q /\ e <= e1 - e2 /\ e <= fexp (Zdigits2 q + e) /\ forall k, k <= e -> in_cell (Zpos m1 * 2 ^ (e1 - e2 - k)) (Zpos m2 * 2 ^ (e - k)) q l).
  { intros m1 e1. destruct (div_core m1 e1 m2 e2) as (q & e & l & H & H'). exists q, e, l. split; auto. unfold fdiv, SFdiv. rewrite H. reflexivity. }
  assert (HR : forall m1 e1, exists e, e <= e1 - e2 /\ forall k, k <= e -> exists t r E, round_as (Zpos m1 * 2 ^ (e1 - e2 - k)) (Zpos m2) k t r E /\
    stands (fdiv (S754_finite false m1 e1) (S754_finite false m2 e2)) r E /\ e <= E).
  { intros m1 e1. destruct (HD m1 e1) as (q & e & l & EQ & Hq & He & HE & HC). exists e. split; auto. intros k Hk.
    destruct (round_aux _ _ k q e l (Pos2Z.is_pos m2) Hk Hq (HC k Hk) HE) as (r & HR & HS). exists (Zdigits2 q + e), r, (fexp (Zdigits2 q + e)). rewrite EQ. auto. }
  assert (HPR : forall m1 e1, proper (fdiv (S754_finite false m1 e1) (S754_finite false m2 e2))).
  { intros m1 e1. destruct (HR m1 e1) as (e & _ & H). destruct (H e (Z.le_refl e)) as (t & r & E & _ & HS & _). eapply stands_proper; eauto. }
  destruct x as [[]|[]| |[] m1 e1]; try destruct HP; destruct x' as [[]|[]| |[] m1' e1']; try destruct HP'; try discriminate HL; try (split; [exact I|reflexivity]).
  - split; [exact I|]. change (fdiv (S754_zero false) (S754_finite false m2 e2)) with (S754_zero false). specialize (HPR m1' e1'). destruct (fdiv (S754_finite false m1' e1') (S754_finite false m2 e2)) as [[]|[]| |[] ? ?]; try destruct HPR; reflexivity.
  - split; auto. specialize (HPR m1 e1). change (fdiv (S754_infinity false) (S754_finite false m2 e2)) with (S754_infinity false).
    destruct (fdiv (S754_finite false m1 e1) (S754_finite false m2 e2)) as [[]|[]| |[] ? ?]; try destruct HPR; reflexivity.
  - split; auto. destruct (HR m1 e1) as (e & Le & X1). destruct (HR m1' e1') as (e' & Le' & X2). set (k := Z.min e e').
    destruct (X1 k ltac:(lia)) as (t & r & E & R1 & S1 & G1). destruct (X2 k ltac:(lia)) as (t' & r' & E' & R2 & S2 & G2).
    apply (stands_le _ _ r E r' E' k); auto; try lia.
    refine (round_as_mono _ _ _ _ _ _ _ _ _ _ (Pos2Z.is_pos m2) _ R1 R2).
    apply (le_finite m1 e1 m1' e1' (k + e2)) in HL; auto; try lia.
    replace (e1 - e2 - k) with (e1 - (k + e2)) by ring. replace (e1' - e2 - k) with (e1' - (k + e2)) by ring. auto.
Qed.

(** ** Integers *)
Lemma of_Z_round p : exists r, stands (f64_of_Z (Zpos p)) r (fexp (Zdigits2 (Zpos p))) /\
  round_as (Zpos p * 2 ^ 1074) 1 (-1074) (Zdigits2 (Zpos p)) r (fexp (Zdigits2 (Zpos p))).
Proof.
  unfold f64_of_Z, binary_normalize, binary_round. rewrite Z.add_0_r. set (d := Zpos (digits2_pos p)). change (Zdigits2 (Zpos p)) with d.
  pose proof (digits_pos p) as HB. fold d in HB.
  assert (HA : exists m e, shl_align p 0 (fexp d) = (m, e) /\ -1074 <= e <= 0 /\ Zpos m = Zpos p * 2 ^ (- e) /\ e <= fexp d).
  { unfold shl_align. rewrite Z.sub_0_r. assert (HF : -1074 <= fexp d) by (rewrite fexp_max; lia). destruct (fexp d) as [|n|n] eqn:EF.
    - exists p, 0. repeat split; try lia.
    - exists p, 0. repeat split; try lia.
    - exists (shift_pos n p), (Zneg n). split; [reflexivity|]. split; [lia|]. split; [|lia]. rewrite shift_pos_correct. cbn [Z.opp]. rewrite Z.pow_pos_fold. ring. }
  destruct HA as (m & e & EQ & He & Hm & HF). rewrite EQ.
  assert (P1 : 0 < 2 ^ (- e)) by (apply pow_pos; lia).
  assert (Hd : Zdigits2 (Zpos m) = d + - e).
  { apply digits_unique; [lia|lia|]. rewrite Hm. replace (d + - e - 1) with (d - 1 + - e) by ring. rewrite !pow_split by lia. split; nia. }
  assert (HC : in_cell (Zpos p * 2 ^ 1074) (1 * 2 ^ (e - -1074)) (Zpos m) loc_Exact).
  { cbn [in_cell]. rewrite Hm. rewrite Z.mul_1_l, <- Z.mul_assoc, <- pow_split by lia. f_equal. f_equal. lia. }
  assert (ET : Zdigits2 (Zpos m) + e = d) by lia.
  destruct (round_aux _ 1 (-1074) (Zpos m) e loc_Exact ltac:(lia) ltac:(lia) ltac:(lia) HC ltac:(rewrite ET; auto)) as (r & HR & HS).
  rewrite ET in *. eauto.
Qed.
Lemma of_Z_mono a b : 0 <= a <= b -> proper (f64_of_Z a) /\ fleb (f64_of_Z a) (f64_of_Z b) = true.
Proof.
  intros [Ha Hb]. destruct a as [|a|a]; [| |lia].
  - split; [exact I|]. destruct b as [|b|b]; [reflexivity| |lia]. destruct (of_Z_round b) as (r & HS & _). apply stands_proper in HS.
    change (f64_of_Z 0) with (S754_zero false). destruct (f64_of_Z (Zpos b)) as [[]|[]| |[] ? ?]; try destruct HS; reflexivity.
  - destruct b as [|b|b]; [lia| |lia]. destruct (of_Z_round a) as (r & HS & HR). destruct (of_Z_round b) as (r' & HS' & HR').
    split; [eapply stands_proper; eauto|]. assert (G : forall t, -1074 <= fexp t) by (intro; rewrite fexp_max; lia).
    apply (stands_le _ _ _ _ _ _ (-1074) (G _) (G _) HS HS').
    refine (round_as_mono _ _ 1 _ _ _ _ _ _ _ ltac:(lia) _ HR HR'). nia.
Qed.

(** ** The order of values that are not NaN *)
Lemma compare_le_lt x y z : proper x -> proper y -> proper z -> fleb x y = true -> fltb y z = true -> fltb x z = true.
Proof.
  unfold fleb, SFleb, fltb, SFltb. intros Hx Hy Hz. destruct x as [[]|[]| |[] m1 e1]; try destruct Hx; destruct y as [[]|[]| |[] m2 e2]; try destruct Hy;
    destruct z as [[]|[]| |[] m3 e3]; try destruct Hz; rewrite ?compare_finite; cbn [SFcompare]; auto; try discriminate.
  destruct (Z.compare_spec e1 e2); destruct (Z.compare_spec e2 e3); destruct (Z.compare_spec e1 e3); try lia; auto; try discriminate; try lia;
  destruct (Pos.compare_spec m1 m2); try discriminate; destruct (Pos.compare_spec m2 m3); try discriminate; destruct (Pos.compare_spec m1 m3); auto; lia.
Qed.
Lemma compare_le_le x y z : proper x -> proper y -> proper z -> fleb x y = true -> fleb y z = true -> fleb x z = true.
Proof.
  unfold fleb, SFleb. intros Hx Hy Hz. destruct x as [[]|[]| |[] m1 e1]; try destruct Hx; destruct y as [[]|[]| |[] m2 e2]; try destruct Hy;
    destruct z as [[]|[]| |[] m3 e3]; try destruct Hz; rewrite ?compare_finite; cbn [SFcompare]; auto; try discriminate.
  destruct (Z.compare_spec e1 e2); destruct (Z.compare_spec e2 e3); destruct (Z.compare_spec e1 e3); try lia; auto; try discriminate; try lia;
  destruct (Pos.compare_spec m1 m2); try discriminate; destruct (Pos.compare_spec m2 m3); try discriminate; destruct (Pos.compare_spec m1 m3); auto; lia.
Qed.

(** ** Bounds on quotients *)
(** 2^1074 times the value *)
Definition val (f : f64) : Z := match f with S754_finite false m e => Zpos m * 2 ^ (e + 1074) | _ => 0 end.
Definition finite (f : f64) : Prop := match f with S754_zero false => True | S754_finite false m e => canonical m e /\ e <= 971 | _ => False end.
Lemma finite_proper f : finite f -> proper f.
Proof. destruct f as [[]|[]| |[] m e]; cbn; auto. Qed.
Lemma val_nonneg f : finite f -> 0 <= val f.
Proof.
  destruct f as [[]|[]| |[] m e]; cbn [finite val]; lia.
Qed.
Lemma val_le f g : finite f -> finite g -> (fleb f g = true <-> val f <= val g).
Proof.
  intros Hf Hg. destruct f as [[]|[]| |[] m e]; try destruct Hf as [Cf Bf]; try (exfalso; exact Hf); destruct g as [[]|[]| |[] m' e']; try destruct Hg as [Cg Bg]; try (exfalso; exact Hg); cbn [val].
  - split; [lia|reflexivity].
  - destruct (canonical_bounds _ _ Cg) as (B & _). pose proof (pow_pos (e' + 1074) ltac:(lia)). split; [nia|reflexivity].
  - destruct (canonical_bounds _ _ Cf) as (B & _). pose proof (pow_pos (e + 1074) ltac:(lia)). split; [discriminate|nia].
  - destruct (canonical_bounds _ _ Cf) as (B & _). destruct (canonical_bounds _ _ Cg) as (B' & _).
    replace (e + 1074) with (e - -1074) by ring. replace (e' + 1074) with (e' - -1074) by ring. apply le_finite; auto.
Qed.
Lemma ltb_leb f g : finite f -> finite g -> fltb f g = negb (fleb g f).
Proof.
  unfold fltb, SFltb, fleb, SFleb. intros Hf Hg. destruct f as [[]|[]| |[] m e]; try destruct Hf as [Cf Bf]; try (exfalso; exact Hf); destruct g as [[]|[]| |[] m' e']; try destruct Hg as [Cg Bg]; try (exfalso; exact Hg);
    rewrite ?compare_finite; try reflexivity. rewrite (Z.compare_antisym e e'). destruct (e ?= e') eqn:E; cbn [CompOpp]; auto. rewrite (Pos.compare_antisym m m'). destruct (m ?= m')%positive; reflexivity.
Qed.
Lemma val_lt f g : finite f -> finite g -> (fltb f g = true <-> val f < val g).
Proof.
  intros Hf Hg. rewrite (ltb_leb f g Hf Hg), negb_true_iff, <- not_true_iff_false. rewrite (val_le g f Hg Hf). lia.
Qed.

Lemma fdiv_round m1 e1 m2 e2 : exists e, e <= e1 - e2 /\ forall k, k <= e -> exists t r E, round_as (Zpos m1 * 2 ^ (e1 - e2 - k)) (Zpos m2) k t r E /\
  stands (fdiv (S754_finite false m1 e1) (S754_finite false m2 e2)) r E /\ e <= E.
Proof.
  destruct (div_core m1 e1 m2 e2) as (q & e & l & EQ & Hq & He & HE & HC). exists e. split; auto. intros k Hk.
  destruct (round_aux _ _ k q e l (Pos2Z.is_pos m2) Hk Hq (HC k Hk) HE) as (r & HR & HS). exists (Zdigits2 q + e), r, (fexp (Zdigits2 q + e)).
  unfold fdiv, SFdiv. rewrite EQ. auto.
Qed.
Lemma canonical_round_as m e D k : 0 < D -> canonical m e -> k <= e -> round_as (Zpos m * (D * 2 ^ (e - k))) D k (Zdigits2 (Zpos m) + e) (Zpos m) e.
Proof.
  intros HD HC Hk. unfold round_as. pose proof (digits_pos m) as [B1 B2]. change (Zdigits2 (Zpos m)) with (Zpos (digits2_pos m)).
  pose proof (pow_pos (e - k) ltac:(lia)) as P1. assert (0 < D * 2 ^ (e - k)) by nia.
  split; [symmetry; exact HC|]. split; [auto|]. split; [lia|]. split; [|split; [|split; [apply nearest_exact; auto|lia]]].
  - replace (Zpos (digits2_pos m) + e - k) with (Zpos (digits2_pos m) + (e - k)) by ring. rewrite pow_split by lia.
    replace (D * (2 ^ Zpos (digits2_pos m) * 2 ^ (e - k))) with (2 ^ Zpos (digits2_pos m) * (D * 2 ^ (e - k))) by ring. nia.
  - intros _. split; [lia|]. replace (Zpos (digits2_pos m) + e - 1 - k) with (Zpos (digits2_pos m) - 1 + (e - k)) by ring. rewrite pow_split by lia.
    replace (D * (2 ^ (Zpos (digits2_pos m) - 1) * 2 ^ (e - k))) with (2 ^ (Zpos (digits2_pos m) - 1) * (D * 2 ^ (e - k))) by ring. nia.
Qed.
Lemma canonical_stands m e : canonical m e -> e <= 971 -> stands (S754_finite false m e) (Zpos m) e.
Proof. intros C B. right. left. exists m, e. repeat split; auto; try lia. rewrite Z.sub_diag. change (2 ^ 0) with 1. ring. Qed.

Lemma fdiv_bounds m1 e1 m2 e2 m e : -1074 <= e1 -> -1074 <= e2 -> canonical m e -> e <= 971 ->
  (Zpos m1 * 2 ^ (e1 + 1074) * 2 ^ 1074 <= Zpos m * 2 ^ (e + 1074) * (Zpos m2 * 2 ^ (e2 + 1074)) ->
    fleb (fdiv (S754_finite false m1 e1) (S754_finite false m2 e2)) (S754_finite false m e) = true) /\
  (Zpos m * 2 ^ (e + 1074) * (Zpos m2 * 2 ^ (e2 + 1074)) <= Zpos m1 * 2 ^ (e1 + 1074) * 2 ^ 1074 ->
    fleb (S754_finite false m e) (fdiv (S754_finite false m1 e1) (S754_finite false m2 e2)) = true).
Proof.
  intros H1 H2 HC HB. destruct (canonical_bounds _ _ HC) as (B1 & _). destruct (fdiv_round m1 e1 m2 e2) as (x & Hx & HR). set (k := Z.min x (Z.min e (-2148 - e2))).
  destruct (HR k ltac:(lia)) as (t & r & E & R & S & G).
  pose proof (canonical_round_as m e (Zpos m2) k ltac:(lia) HC ltac:(lia)) as R'. pose proof (canonical_stands m e HC HB) as S'.
  (* both sides scaled by 2^(k + e2 + 2148) *)
  set (j := - k - e2 - 2148). assert (Hj : 0 <= j) by lia. pose proof (pow_pos j Hj) as Pj.
  assert (X1 : Zpos m1 * 2 ^ (e1 - e2 - k) = Zpos m1 * 2 ^ (e1 + 1074) * 2 ^ 1074 * 2 ^ j).
  { rewrite <- !Z.mul_assoc, <- !pow_split by lia. f_equal. f_equal. lia. }
  assert (X2 : Zpos m * (Zpos m2 * 2 ^ (e - k)) = Zpos m * 2 ^ (e + 1074) * (Zpos m2 * 2 ^ (e2 + 1074)) * 2 ^ j).
  { replace (Zpos m * 2 ^ (e + 1074) * (Zpos m2 * 2 ^ (e2 + 1074)) * 2 ^ j) with (Zpos m * (Zpos m2 * (2 ^ (e + 1074) * 2 ^ (e2 + 1074) * 2 ^ j))) by ring.
    rewrite <- !pow_split by lia. do 3 f_equal. lia. }
  rewrite X1 in R. rewrite X2 in R'.
  split; intro H.
  - apply (stands_le _ _ r E (Zpos m) e k ltac:(lia) ltac:(lia) S S'). refine (round_as_mono _ _ (Zpos m2) _ _ _ _ _ _ _ ltac:(lia) _ R R'). nia.
  - apply (stands_le _ _ (Zpos m) e r E k ltac:(lia) ltac:(lia) S' S). refine (round_as_mono _ _ (Zpos m2) _ _ _ _ _ _ _ ltac:(lia) _ R' R). nia.
Qed.

(** a/2^b as a float *)
Lemma representable a b : 0 <= a < 2 ^ 53 -> 0 <= b <= 900 -> exists f, finite f /\ val f = a * 2 ^ (1074 - b).
Proof.
  intros [Ha Ha'] Hb. destruct a as [|p|p]; [exists (S754_zero false); cbn; split; auto| |lia].
  pose proof (digits_pos p) as [B1 B2]. pose proof (digits_le (Zpos p) 53 ltac:(lia) ltac:(lia) Ha') as B3. cbn [Zdigits2] in B3. set (d := Zpos (digits2_pos p)) in *.
  set (s := 53 - d). pose proof (pow_pos s ltac:(lia)) as Ps. destruct (Zpos p * 2 ^ s) as [|m|m] eqn:Em; try nia.
  assert (Hd : Zdigits2 (Zpos m) = d + s).
  { apply digits_unique; [lia|lia|]. rewrite <- Em. replace (d + s - 1) with (d - 1 + s) by ring. rewrite !pow_split by lia. nia. }
  exists (S754_finite false m (- b - s)). cbn [finite val]. split; [split; [|lia]|].
  - unfold canonical. cbn [Zdigits2] in Hd. rewrite Hd, fexp_max. lia.
  - rewrite <- Em, <- Z.mul_assoc, <- pow_split by lia. f_equal. f_equal. lia.
Qed.
Lemma of_Z_exact a : 0 <= a < 2 ^ 53 -> finite (f64_of_Z a) /\ val (f64_of_Z a) = a * 2 ^ 1074.
Proof.
  intros [Ha Ha']. destruct a as [|p|p]; [cbn; auto| |lia]. destruct (of_Z_round p) as (r & HS & HR).
  pose proof (digits_le (Zpos p) 53 ltac:(lia) ltac:(lia) Ha') as B3. pose proof (digits_gt (Zpos p) ltac:(lia)).
  set (E := fexp (Zdigits2 (Zpos p))) in *. assert (HE : -1074 <= E <= 0) by (unfold E; rewrite fexp_max; lia).
  destruct HR as (_ & _ & _ & _ & _ & HN & _).
  assert (Hr : r = Zpos p * 2 ^ (- E)).
  { assert (X : nearest (Zpos p * 2 ^ 1074) (1 * 2 ^ (E - -1074)) (Zpos p * 2 ^ (- E))).
    { replace (Zpos p * 2 ^ 1074) with (Zpos p * 2 ^ (- E) * (1 * 2 ^ (E - -1074))). { apply nearest_exact. pose proof (pow_pos (E - -1074) ltac:(lia)). lia. }
      rewrite Z.mul_1_l, <- Z.mul_assoc, <- pow_split by lia. f_equal. f_equal. lia. }
    pose proof (pow_pos (E - -1074) ltac:(lia)).
    pose proof (nearest_mono _ _ (1 * 2 ^ (E - -1074)) _ _ ltac:(lia) (Z.le_refl _) HN X). pose proof (nearest_mono _ _ (1 * 2 ^ (E - -1074)) _ _ ltac:(lia) (Z.le_refl _) X HN). lia. }
  pose proof (pow_pos (- E) ltac:(lia)) as PE.
  assert (0 < Zpos p * 2 ^ (- E)) by (apply Z.mul_pos_pos; lia).
  destruct HS as [(-> & _)|[(m & e & EQ & C & B & HE' & HM)|(_ & _ & HB)]].
  - lia.
  - rewrite EQ. cbn [finite val]. split; auto. rewrite Hr in HM. destruct (canonical_bounds _ _ C) as (B1 & _).
    replace (e + 1074) with (e - E + (E + 1074)) by ring. rewrite pow_split by lia. rewrite Z.mul_assoc, <- HM, <- Z.mul_assoc, <- pow_split by lia. f_equal. f_equal. lia.
  - exfalso. rewrite Hr in HB. assert (Zpos p * 2 ^ (- E) < 2 ^ (53 + (- E))) by (rewrite pow_split by lia; nia).
    pose proof (digits_le (Zpos p * 2 ^ (- E)) (53 + - E) ltac:(lia) ltac:(lia) ltac:(auto)). lia.
Qed.

(** [f] is at most (at least) a/2^b *)
Definition at_most (f : f64) (a b : Z) : Prop := finite f /\ val f <= a * 2 ^ (1074 - b).
Definition at_least (f : f64) (a b : Z) : Prop := finite f /\ a * 2 ^ (1074 - b) <= val f.

Lemma div_bounds f c a b a' b' : 0 < c < 2 ^ 53 -> 0 <= b <= 900 -> 0 <= b' <= 900 -> 0 <= a' < 2 ^ 53 ->
  (at_most f a b -> a * 2 ^ b' <= a' * c * 2 ^ b -> at_most (fdiv f (f64_of_Z c)) a' b').
Proof.
  intros Hc Hb Hb' Ha' [Ff Vf] H. destruct (of_Z_exact c ltac:(lia)) as [Fc Vc]. destruct (representable a' b' Ha' Hb') as (z & Fz & Vz).
  pose proof (pow_pos 1074 ltac:(lia)) as P1. pose proof (pow_pos (1074 - b) ltac:(lia)) as Pb. pose proof (pow_pos (1074 - b') ltac:(lia)) as Pb'.
  destruct (f64_of_Z c) as [[]|[]| |[] m2 e2]; try (exfalso; exact Fc); cbn [val] in Vc; [nia|]. destruct Fc as [Cc Bc].
  destruct f as [[]|[]| |[] m1 e1]; try (exfalso; exact Ff).
  - change (fdiv (S754_zero false) (S754_finite false m2 e2)) with (S754_zero false). split; [exact I|]. cbn [val]. nia.
  - destruct Ff as [Cf Bf]. cbn [val] in Vf. destruct (canonical_bounds _ _ Cf) as (K1 & _). destruct (canonical_bounds _ _ Cc) as (K2 & _).
    pose proof (pow_pos (e1 + 1074) ltac:(lia)) as Pe1.
    assert (X : a * 2 ^ (1074 - b) <= a' * c * 2 ^ (1074 - b')).
    { assert (Q : 2 ^ 1074 = 2 ^ b * 2 ^ (1074 - b)) by (rewrite <- pow_split by lia; f_equal; lia).
      assert (Q' : 2 ^ 1074 = 2 ^ b' * 2 ^ (1074 - b')) by (rewrite <- pow_split by lia; f_equal; lia).
      pose proof (pow_pos b ltac:(lia)). pose proof (pow_pos b' ltac:(lia)).
      assert (a * 2 ^ (1074 - b) * (2 ^ b * 2 ^ b') <= a' * c * 2 ^ (1074 - b') * (2 ^ b * 2 ^ b')).
      { replace (a * 2 ^ (1074 - b) * (2 ^ b * 2 ^ b')) with (a * 2 ^ b' * (2 ^ b * 2 ^ (1074 - b))) by ring.
        replace (a' * c * 2 ^ (1074 - b') * (2 ^ b * 2 ^ b')) with (a' * c * 2 ^ b * (2 ^ b' * 2 ^ (1074 - b'))) by ring. rewrite <- Q, <- Q'. nia. }
      apply Z.mul_le_mono_pos_r in H2; auto. nia. }
    destruct z as [[]|[]| |[] m e]; try (exfalso; exact Fz); cbn [val] in Vz.
    + exfalso. assert (a' = 0) by nia. subst a'. nia.
    + destruct Fz as [Cz Bz]. destruct (fdiv_bounds m1 e1 m2 e2 m e K1 K2 Cz Bz) as [HL _].
      assert (G : fleb (fdiv (S754_finite false m1 e1) (S754_finite false m2 e2)) (S754_finite false m e) = true).
      { apply HL. rewrite Vz, Vc. replace (a' * 2 ^ (1074 - b') * (c * 2 ^ 1074)) with (a' * c * 2 ^ (1074 - b') * 2 ^ 1074) by ring. apply Z.mul_le_mono_nonneg_r; lia. }
      assert (F : finite (fdiv (S754_finite false m1 e1) (S754_finite false m2 e2))).
      { destruct (fdiv_round m1 e1 m2 e2) as (x & _ & HR). destruct (HR x (Z.le_refl x)) as (t & r & E & _ & S & _). apply stands_proper in S.
        destruct (fdiv (S754_finite false m1 e1) (S754_finite false m2 e2)) as [[]|[]| |[] ? ?]; auto; discriminate G. }
      split; auto. rewrite <- Vz. apply (val_le _ (S754_finite false m e)) in G; auto. split; auto.
Qed.
Lemma div_bounds_low f c a b a' b' : 0 < c < 2 ^ 53 -> 0 <= b <= 900 -> 0 <= b' <= 900 -> 0 <= a' < 2 ^ 53 -> finite (fdiv f (f64_of_Z c)) ->
  at_least f a b -> a' * c * 2 ^ b <= a * 2 ^ b' -> at_least (fdiv f (f64_of_Z c)) a' b'.
Proof.
  intros Hc Hb Hb' Ha' FD [Ff Vf] H. destruct (of_Z_exact c ltac:(lia)) as [Fc Vc]. destruct (representable a' b' Ha' Hb') as (z & Fz & Vz).
  pose proof (pow_pos 1074 ltac:(lia)) as P1. pose proof (pow_pos (1074 - b) ltac:(lia)) as Pb. pose proof (pow_pos (1074 - b') ltac:(lia)) as Pb'.
  split; auto. destruct (f64_of_Z c) as [[]|[]| |[] m2 e2]; try (exfalso; exact Fc); cbn [val] in Vc; [nia|]. destruct Fc as [Cc Bc].
  assert (X : a' * c * 2 ^ (1074 - b') <= a * 2 ^ (1074 - b)).
  { assert (Q : 2 ^ 1074 = 2 ^ b * 2 ^ (1074 - b)) by (rewrite <- pow_split by lia; f_equal; lia).
    assert (Q' : 2 ^ 1074 = 2 ^ b' * 2 ^ (1074 - b')) by (rewrite <- pow_split by lia; f_equal; lia).
    pose proof (pow_pos b ltac:(lia)). pose proof (pow_pos b' ltac:(lia)).
    assert (a' * c * 2 ^ (1074 - b') * (2 ^ b * 2 ^ b') <= a * 2 ^ (1074 - b) * (2 ^ b * 2 ^ b')).
    { replace (a * 2 ^ (1074 - b) * (2 ^ b * 2 ^ b')) with (a * 2 ^ b' * (2 ^ b * 2 ^ (1074 - b))) by ring.
      replace (a' * c * 2 ^ (1074 - b') * (2 ^ b * 2 ^ b')) with (a' * c * 2 ^ b * (2 ^ b' * 2 ^ (1074 - b'))) by ring. rewrite <- Q, <- Q'. nia. }
    apply Z.mul_le_mono_pos_r in H2; auto. nia. }
  destruct z as [[]|[]| |[] m e]; try (exfalso; exact Fz); cbn [val] in Vz.
  { rewrite <- Vz. apply val_nonneg; auto. }
  destruct f as [[]|[]| |[] m1 e1]; try (exfalso; exact Ff).
  - exfalso. cbn [val] in Vf. destruct Fz as [Cz Bz]. destruct (canonical_bounds _ _ Cz) as (K3 & _). pose proof (pow_pos (e + 1074) ltac:(lia)). nia.
  - destruct Ff as [Cf Bf]. cbn [val] in Vf. destruct (canonical_bounds _ _ Cf) as (K1 & _). destruct (canonical_bounds _ _ Cc) as (K2 & _).
    destruct Fz as [Cz Bz]. destruct (fdiv_bounds m1 e1 m2 e2 m e K1 K2 Cz Bz) as [_ HL]. rewrite <- Vz.
    apply (val_le (S754_finite false m e)); [split; auto|auto|]. apply HL. rewrite Vz, Vc.
    replace (a' * 2 ^ (1074 - b') * (c * 2 ^ 1074)) with (a' * c * 2 ^ (1074 - b') * 2 ^ 1074) by ring. apply Z.mul_le_mono_nonneg_r; lia.
Qed.
