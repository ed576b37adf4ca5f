(** The byte-level splitter finds the brace-balanced pieces of any text. *)
From Coq Require Import List String Ascii Bool Arith ZArith Lia.
From Verif Require Import Base GoStr GoStr_facts GoFloat Types Eval Spec_Tree Leaf_proofs Spec_Split Split_proofs Spec_Raw.
Import ListNotations.
Open Scope string_scope.

(** the scan with the text of the object begun in place of its position *)
Fixpoint walk (rest : string) (c : Z) (cur : option string) : list string :=
  match rest with
  | EmptyString => []
  | String ch rest' =>
    let cur := if Ascii.eqb ch "{" then if (c =? 0)%Z then Some "" else cur else cur in
    let c := (c + (if Ascii.eqb ch "{" then 1 else if Ascii.eqb ch "}" then -1 else 0))%Z in
    match (c =? 0)%Z, cur with
    | true, Some w => (w ++ String ch "") :: walk rest' c None
    | _, _ => walk rest' c (option_map (fun w => w ++ String ch "") cur)
    end
  end.

Lemma take_drop_mid pre w s : take (String.length w) (drop (String.length pre) (pre ++ w ++ s)) = w.
Proof. rewrite drop_app. apply take_app. Qed.
Lemma scan_walk rest : forall pre w c (some : bool),
  split_objects_from (pre ++ w ++ rest) rest (String.length (pre ++ w)) c (if some then Some (String.length pre) else None) =
  walk rest c (if some then Some w else None).
Proof.
  induction rest as [|ch rest IH]; intros pre w c some; [reflexivity|]. cbn [split_objects_from walk].
  set (e := String ch "").
  assert (D : pre ++ w ++ String ch rest = (pre ++ w ++ e) ++ rest) by (unfold e; rewrite !append_assoc; reflexivity).
  assert (LW : S (String.length (pre ++ w)) = String.length (pre ++ w ++ e)) by (unfold e; rewrite !length_append; simpl; lia).
  assert (HN : forall c', split_objects_from (pre ++ w ++ String ch rest) rest (S (String.length (pre ++ w))) c' None = walk rest c' None).
  { intro c'. rewrite D, LW. specialize (IH (pre ++ w ++ e) "" c' false). cbn [append] in IH. rewrite append_nil_r in IH. exact IH. }
  assert (HS : forall c', split_objects_from (pre ++ w ++ String ch rest) rest (S (String.length (pre ++ w))) c' (Some (String.length pre)) = walk rest c' (Some (w ++ e))).
  { intro c'. specialize (IH pre (w ++ e) c' true). rewrite <- IH. f_equal; [unfold e; rewrite !append_assoc; reflexivity|]. rewrite LW. reflexivity. }
  assert (H0 : forall c', split_objects_from (pre ++ w ++ String ch rest) rest (S (String.length (pre ++ w))) c' (Some (String.length (pre ++ w))) = walk rest c' (Some e)).
  { intro c'. specialize (IH (pre ++ w) e c' true). rewrite <- IH. f_equal; [unfold e; rewrite !append_assoc; reflexivity|].
    unfold e. rewrite !length_append. simpl. lia. }
  assert (TK : forall p x, pre ++ w = p ++ x -> take (String.length (pre ++ w) + 1 - String.length p) (drop (String.length p) (pre ++ w ++ String ch rest)) = x ++ e).
  { intros p x E. replace (pre ++ w ++ String ch rest) with (p ++ (x ++ e) ++ rest)
      by (unfold e; rewrite append_assoc; cbn [append]; rewrite <- (append_assoc p x), <- E, append_assoc; reflexivity).
    rewrite E, drop_app. replace (String.length (p ++ x) + 1 - String.length p) with (String.length (x ++ e)) by (unfold e; rewrite !length_append; simpl; lia).
    apply take_app. }
  destruct (Ascii.eqb_spec ch "{") as [->|N1].
  - cbn [Ascii.eqb Bool.eqb]. change (Ascii.eqb "{" "}") with false. cbv iota zeta. destruct (Z.eqb_spec c 0) as [->|NC].
    + change (0 + 1 =? 0)%Z with false. cbv iota. rewrite H0. reflexivity.
    + destruct (Z.eqb_spec (c + 1) 0) as [E|N]; destruct some; cbn [option_map]; rewrite ?HS, ?HN; try reflexivity.
      f_equal. apply TK. reflexivity.
  - destruct (Ascii.eqb_spec ch "}") as [->|N2]; cbv iota zeta.
    + replace (c - 1)%Z with (c + -1)%Z by lia. destruct (Z.eqb_spec (c + -1) 0); destruct some; cbn [option_map]; rewrite ?HS, ?HN; try reflexivity. f_equal. apply TK. reflexivity.
    + replace (c + 0)%Z with c by lia. destruct (Z.eqb_spec c 0); destruct some; cbn [option_map]; rewrite ?HS, ?HN; try reflexivity. f_equal. apply TK. reflexivity.
Qed.

Lemma balance_app a b : balance (a ++ b) = (balance a + balance b)%Z.
Proof. induction a as [|c a IH]; cbn [append balance]; [lia|]. rewrite IH. lia. Qed.
Lemma balance_char c s : balance (String c s) = ((if Ascii.eqb c "{" then 1 else if Ascii.eqb c "}" then -1 else 0) + balance s)%Z.
Proof. reflexivity. Qed.

(** outside objects *)
Lemma walk_gap g : forall r c, (forall a b, g = a ++ "{" ++ b -> (c + balance a <> 0)%Z) -> walk (g ++ r) c None = walk r (c + balance g) None.
Proof.
  induction g as [|ch g IH]; intros r c H; cbn [append balance walk]; [f_equal; lia|].
  assert (HC : Ascii.eqb ch "{" = true -> (c =? 0)%Z = false).
  { intro E. apply Ascii.eqb_eq in E. subst ch. apply Z.eqb_neq. specialize (H "" g eq_refl). simpl in H. lia. }
  assert (HG : forall a b, g = a ++ "{" ++ b -> ((c + (if Ascii.eqb ch "{" then 1 else if Ascii.eqb ch "}" then -1 else 0)) + balance a <> 0)%Z).
  { intros a b E. specialize (H (String ch a) b). rewrite E in H. specialize (H eq_refl). rewrite balance_char in H. lia. }
  cbv zeta. set (x := (if Ascii.eqb ch "{" then 1 else if Ascii.eqb ch "}" then -1 else 0)%Z) in *.
  assert (E : (if Ascii.eqb ch "{" then if (c =? 0)%Z then Some "" else None else None) = @None string).
  { destruct (Ascii.eqb ch "{"); auto. rewrite (HC eq_refl). auto. }
  rewrite E. rewrite Z.add_assoc, <- (IH r (c + x)%Z HG). destruct (c + x =? 0)%Z; reflexivity.
Qed.
(** inside an object *)
Lemma walk_inside s : forall r c w, (c <> 0)%Z -> (forall a b, s = a ++ b -> a <> "" -> (c + balance a <> 0)%Z) ->
  walk (s ++ r) c (Some w) = walk r (c + balance s) (Some (w ++ s)).
Proof.
  induction s as [|ch s IH]; intros r c w HC H; cbn [append balance walk]; [rewrite append_nil_r; f_equal; lia|].
  pose proof (H (String ch "") s eq_refl ltac:(discriminate)) as H1. rewrite balance_char in H1. cbn [balance] in H1. rewrite Z.add_0_r in H1.
  assert (E : (if Ascii.eqb ch "{" then if (c =? 0)%Z then Some "" else Some w else Some w) = Some w).
  { destruct (Z.eqb_spec c 0); [lia|]. destruct (Ascii.eqb ch "{"); reflexivity. }
  cbv zeta. rewrite E. destruct (Z.eqb_spec (c + (if Ascii.eqb ch "{" then 1 else if Ascii.eqb ch "}" then -1 else 0)) 0) as [E0|_]; [lia|].
  cbn [option_map]. rewrite IH; auto.
  - f_equal; [lia|]. rewrite append_assoc. reflexivity.
  - intros a b E' NA. specialize (H (String ch a) b). rewrite E' in H. specialize (H eq_refl ltac:(discriminate)). rewrite balance_char in H. lia.
Qed.
Lemma string_snoc b : b = "" \/ exists b' x, b = b' ++ String x "".
Proof.
  induction b as [|c b [->|(b' & x & ->)]]; [auto|right|right].
  - exists "", c. reflexivity.
  - exists (String c b'), x. reflexivity.
Qed.
Lemma snoc_nonempty b x : b ++ String x "" <> "".
Proof. destruct b; discriminate. Qed.
Lemma walk_piece o r : piece o -> walk (o ++ r) 0 None = o :: walk r 0 None.
Proof.
  intros ([b ->] & HB & HP). cbn [append] in *.
  destruct (string_snoc b) as [->|(b' & x & ->)]; [discriminate HB|].
  cbn [append walk]. cbn [Ascii.eqb Bool.eqb]. cbv zeta. change (0 + 1 =? 0)%Z with false. cbn [Z.eqb option_map append].
  rewrite append_assoc. rewrite (walk_inside b'); [|discriminate|].
  - cbn [append walk]. rewrite balance_char, balance_app in HB. cbn [balance] in HB. rewrite Z.add_0_r in HB. change (Ascii.eqb "{" "{") with true in HB. cbv iota in HB.
    cbv zeta. rewrite <- Z.add_assoc. replace (balance b' + _)%Z with (-1)%Z by lia. change (0 + 1 + -1)%Z with 0%Z. cbn [Z.eqb].
    assert (NB : (0 + 1 + balance b' <> 0)%Z).
    { specialize (HP (String "{" b') (String x "") ltac:(reflexivity) ltac:(discriminate) ltac:(discriminate)). rewrite balance_char in HP. change (Ascii.eqb "{" "{") with true in HP. cbv iota in HP. lia. }
    destruct (Z.eqb_spec (0 + 1 + balance b') 0); [lia|]. destruct (Ascii.eqb x "{"); reflexivity.
  - intros a c E NA. specialize (HP (String "{" a) (c ++ String x "")). rewrite balance_char in HP. change (Ascii.eqb "{" "{") with true in HP. cbv iota in HP.
    assert (1 + balance a <> 0)%Z; [|lia]. apply HP; [rewrite E, append_assoc; reflexivity|discriminate|apply snoc_nonempty].
Qed.
Lemma walk_next g o r : gap g -> piece o -> walk (g ++ o ++ r) 0 None = o :: walk r 0 None.
Proof.
  intros [HB HG] HO. rewrite walk_gap by (intros a b E; specialize (HG a b E); lia). rewrite HB. apply walk_piece. auto.
Qed.

(** every text is read this way *)
Lemma walk_pieces rest :
  (forall g, (forall a b, g = a ++ "{" ++ b -> balance a <> 0%Z) -> pieces (g ++ rest) (walk rest (balance g) None)) /\
  (forall g w, gap g -> starts "{" w -> (forall a b, w = a ++ b -> a <> "" -> balance a <> 0%Z) -> pieces (g ++ w ++ rest) (walk rest (balance w) (Some w))).
Proof.
  assert (PS : forall a b x y : string, a ++ b = x ++ y -> (exists z, a = x ++ z /\ y = z ++ b) \/ (exists z, x = a ++ z /\ b = z ++ y /\ z <> "")).
  { induction a as [|c a IH]; intros b x y E.
    - destruct x as [|d x]; [left; exists ""; auto|]. right. exists (String d x). split; auto. split; [exact E|discriminate].
    - destruct x as [|d x]; [left; exists (String c a); auto|]. injection E as -> E. destruct (IH _ _ _ E) as [(z & -> & ->)|(z & -> & -> & N)]; [left|right]; exists z; auto. }
  induction rest as [|ch rest [IH1 IH2]].
  - split.
    + intros g HG. cbn [walk]. rewrite append_nil_r. apply pi_none. intros g' o r E G' HO. pose proof (walk_next g' o r G' HO) as H. rewrite <- E in H.
      rewrite <- (append_nil_r g) in H. rewrite walk_gap in H by (intros; rewrite Z.add_0_l; eauto). discriminate H.
    + intros g w [GB GG] [b ->] HW. cbn [walk]. rewrite append_nil_r. apply pi_none. intros g' o r E G' HO. pose proof (walk_next g' o r G' HO) as H. rewrite <- E in H.
      rewrite walk_gap in H by (intros; rewrite Z.add_0_l; eauto). rewrite GB in H. cbn [append walk] in H. cbn [Ascii.eqb Bool.eqb] in H. cbv zeta in H.
      change (0 + 0)%Z with 0%Z in H. cbn [Z.eqb option_map append] in H. change (0 + 1 =? 0)%Z with false in H. cbv iota in H.
      rewrite <- (append_nil_r b) in H. rewrite walk_inside in H; [discriminate H|discriminate|].
      intros a c EA NA. specialize (HW (String "{" a) c). rewrite EA in HW. specialize (HW eq_refl ltac:(discriminate)). rewrite balance_char in HW. change (Ascii.eqb "{" "{") with true in HW. cbv iota in HW. lia.
  - assert (SN : forall w : string, w ++ String ch rest = (w ++ String ch "") ++ rest) by (intro; rewrite append_assoc; reflexivity).
    assert (BS : forall w, balance (w ++ String ch "") = (balance w + (if Ascii.eqb ch "{" then 1 else if Ascii.eqb ch "}" then -1 else 0))%Z).
    { intro w. rewrite balance_app. cbn [balance]. lia. }
    split.
    + intros g HG. cbn [walk]. cbv zeta. rewrite <- BS.
      destruct (Ascii.eqb ch "{" && (balance g =? 0)%Z) eqn:EB.
      * apply andb_true_iff in EB. destruct EB as [E1 E2]. rewrite E1, E2. apply Ascii.eqb_eq in E1. apply Z.eqb_eq in E2. subst ch.
        rewrite BS, E2. change (0 + (if Ascii.eqb "{" "{" then 1 else if Ascii.eqb "{" "}" then -1 else 0))%Z with (balance "{"). change (balance "{" =? 0)%Z with false. cbv iota.
        cbn [option_map append]. change (String "{" rest) with ("{" ++ rest). apply IH2; [split; auto|exists ""; reflexivity|].
        intros a b E NA. destruct a as [|x a]; [congruence|]. injection E as <- E. destruct a; [|discriminate]. discriminate.
      * assert (EC : (if Ascii.eqb ch "{" then if (balance g =? 0)%Z then Some "" else None else None) = @None string) by (destruct (Ascii.eqb ch "{"); auto; simpl in EB; rewrite EB; auto).
        rewrite EC. rewrite SN.
        assert (R : pieces ((g ++ String ch "") ++ rest) (walk rest (balance (g ++ String ch "")) None)).
        { apply IH1. intros a b E. destruct (PS _ _ _ _ E) as [(z & E1 & E2)|(z & -> & E2 & NZ)].
          - destruct z as [|y z].
            + cbn [append] in E2. injection E2 as E3 _. subst ch. rewrite append_nil_r in E1. subst a. change (Ascii.eqb "{" "{") with true in EB. cbn [andb] in EB. apply Z.eqb_neq. auto.
            + cbn [append] in E2. injection E2 as <- _. eapply HG. rewrite E1. reflexivity.
          - destruct z as [|y z]; [congruence|]. cbn [append] in E2. injection E2 as -> E2. destruct z; discriminate. }
        destruct (balance (g ++ String ch "") =? 0)%Z; exact R.
    + intros g w HG [b ->] HW.
      assert (BW : balance ("{" ++ b) <> 0%Z) by (apply (HW _ ""); [rewrite append_nil_r; reflexivity|discriminate]).
      cbn [walk]. cbv zeta. rewrite <- BS.
      assert (EC : (if Ascii.eqb ch "{" then if (balance ("{" ++ b) =? 0)%Z then Some "" else Some ("{" ++ b) else Some ("{" ++ b)) = Some ("{" ++ b)).
      { apply Z.eqb_neq in BW. rewrite BW. destruct (Ascii.eqb ch "{"); reflexivity. }
      rewrite EC. rewrite SN.
      assert (PR : forall a c, ("{" ++ b) ++ String ch "" = a ++ c -> a <> "" -> c <> "" -> balance a <> 0%Z).
      { intros a c E NA NC. destruct (PS _ _ _ _ E) as [(z & E1 & _)|(z & -> & E2 & NZ)]; [apply (HW a z); auto|].
        destruct z as [|y z]; [congruence|]. cbn [append] in E2. injection E2 as _ E2. destruct z; [|discriminate]. destruct c; [congruence|discriminate]. }
      destruct (Z.eqb_spec (balance (("{" ++ b) ++ String ch "")) 0) as [E0|N0].
      * rewrite E0. apply pi_next; auto.
        -- split; [exists (b ++ String ch ""); cbn [append]; reflexivity|]. split; auto.
        -- specialize (IH1 ""). apply IH1. intros a c E. destruct a; discriminate.
      * cbn [option_map]. apply IH2; auto; [exists (b ++ String ch ""); reflexivity|]. intros a c E NA. destruct c as [|y c]; [rewrite append_nil_r in E; subst a; auto|].
        apply (PR a (String y c)); auto. discriminate.
Qed.

Theorem split_pieces u os : split_objects u = Some os <-> ~ starts "{" u /\ pieces u os.
Proof.
  assert (W : forall os, pieces u os <-> walk u 0 None = os).
  { clear os. intro os. split.
    - induction 1 as [u HN|g o u os HG HO _ IH]; [|rewrite walk_next by auto; f_equal; auto].
      pose proof (proj1 (walk_pieces u) "" ltac:(intros a b E; destruct a; discriminate)) as H. cbn [append balance] in H.
      destruct (walk u 0 None) as [|o os]; auto. inversion H; subst. exfalso. eapply HN; eauto.
    - intros <-. apply (proj1 (walk_pieces u) ""). intros a b E; destruct a; discriminate. }
  rewrite W. unfold split_objects. destruct u as [|ch u].
  - cbn [walk]. split; [intro E; injection E as <-; split; auto; intros [r E]; discriminate|intros [_ <-]; auto].
  - destruct (Ascii.eqb_spec ch "{") as [->|N].
    + split; [discriminate|]. intros [H _]. exfalso. apply H. exists u. reflexivity.
    + pose proof (scan_walk (String ch u) "" "" 0 false) as HW. cbn [append String.length] in HW. rewrite HW. split; [intro E; injection E as <-; split; auto; intros [r E]; injection E as E _; congruence|intros [_ <-]; auto].
Qed.
Theorem split_none u : split_objects u = None <-> starts "{" u.
Proof.
  unfold split_objects. destruct u as [|ch u]; [split; [discriminate|intros [r E]; discriminate]|].
  destruct (Ascii.eqb_spec ch "{") as [->|N]; [split; auto; exists u; reflexivity|]. split; [discriminate|]. intros [r E]. injection E as E _. congruence.
Qed.
