(** Evaluation in shared memory and evaluation with copied bytes. *)
From Coq Require Import List String Ascii Bool Arith ZArith Lia.
From Verif Require Import Base GoStr GoStr_facts GoFloat Types Json StrUtils Validate Eval Slices Spec_Slices Tree_proofs Concurrent_proofs.
Import ListNotations.
Open Scope string_scope.

(** ** Strings *)
Lemma length_take n s : n <= String.length s -> String.length (take n s) = n.
Proof. revert s. induction n; intros [|c s] H; simpl in *; auto; try lia. rewrite IHn; lia. Qed.
Lemma take_drop_split n s : n <= String.length s -> take n s ++ drop n s = s.
Proof. revert s. induction n; intros [|c s] H; simpl in *; auto; try lia. rewrite IHn; auto; lia. Qed.
Lemma drop_app_len a b n : n = String.length a -> drop n (a ++ b) = b.
Proof. intros ->. induction a; simpl; auto. Qed.
Lemma take_app_len a b n : n = String.length a -> take n (a ++ b) = a.
Proof. intros ->. induction a; simpl; auto. f_equal; auto. Qed.
Lemma length_drop n s : String.length (drop n s) = String.length s - n.
Proof. revert s. induction n; intros [|c s]; simpl; auto. Qed.
Lemma append_assoc' a b c : (a ++ b) ++ c = a ++ b ++ c.
Proof. induction a; simpl; congruence. Qed.
Lemma length_app a b : String.length (a ++ b) = String.length a + String.length b.
Proof. induction a; simpl; auto. Qed.

(** a slice as a middle part *)
Lemma in_heap_iff h s : in_heap h s <-> exists a b c, nth_error h (sl_arr s) = Some (a ++ b ++ c) /\ String.length a = sl_off s /\ String.length b = sl_len s /\ content h s = b.
Proof.
  split.
  - intros (x & E & H). exists (take (sl_off s) x), (take (sl_len s) (drop (sl_off s) x)), (drop (sl_len s) (drop (sl_off s) x)).
    rewrite !take_drop_split by (rewrite ?length_drop; lia). split; auto. rewrite !length_take by (rewrite ?length_drop; lia). repeat split; auto.
    unfold content, array. rewrite (nth_error_nth _ _ "" E). auto.
  - intros (a & b & c & E & H1 & H2 & _). exists (a ++ b ++ c). split; auto. rewrite !length_app. lia.
Qed.
Lemma content_middle h s a b c : nth_error h (sl_arr s) = Some (a ++ b ++ c) -> String.length a = sl_off s -> String.length b = sl_len s -> content h s = b.
Proof.
  intros E H1 H2. unfold content, array. rewrite (nth_error_nth _ _ "" E). rewrite drop_app_len by auto. apply take_app_len. auto.
Qed.
Lemma content_length h s : in_heap h s -> String.length (content h s) = sl_len s.
Proof. intro H. apply in_heap_iff in H. destruct H as (a & b & c & _ & _ & H & ->). auto. Qed.

Lemma in_heap_more h more s : in_heap h s -> in_heap (h ++ more)%list s.
Proof. intros (a & E & H). exists a. split; auto. rewrite nth_error_app1; auto. apply nth_error_Some. congruence. Qed.
Lemma content_more h more s : in_heap h s -> content (h ++ more)%list s = content h s.
Proof.
  intros (a & E & _). unfold content, array. rewrite app_nth1; auto. apply nth_error_Some. congruence.
Qed.

(** ** States *)
Definition ext (st st' : mst) : Prop :=
  s_doc st' = s_doc st /\ (exists more, s_heap st' = (s_heap st ++ more)%list) /\ in_memory st'.
Lemma ext_refl st : in_memory st -> ext st st.
Proof. intro H. split; auto. split; auto. exists []. rewrite app_nil_r. auto. Qed.
Lemma ext_trans a b c : ext a b -> ext b c -> ext a c.
Proof.
  intros (D1 & (m1 & H1) & W1) (D2 & (m2 & H2) & W2). split; [congruence|]. split; auto. exists (m1 ++ m2)%list. rewrite H2, H1, app_assoc. auto.
Qed.
Lemma ext_memory a b : ext a b -> in_memory b.
Proof. intros (_ & _ & H). auto. Qed.

Definition simat {A} (x : M A) (y : MM A) (st : mst) : Prop :=
  x (view st) = (fst (y st), view (snd (y st))) /\ ext st (snd (y st)).
Definition sim {A} (x : M A) (y : MM A) : Prop := forall st, in_memory st -> simat x y st.

Lemma simat_bind {A B} (x : M A) (y : MM A) (f : A -> M B) (g : A -> MM B) st : simat x y st ->
  (forall a st1, ext st st1 -> in_memory st1 -> simat (f a) (g a) st1) -> simat (mbind x f) (sbind y g) st.
Proof.
  intros [E X] H. unfold simat, mbind, sbind. rewrite E. destruct (y st) as [[a|] st1]; simpl in *; auto.
  destruct (H a st1 X (ext_memory _ _ X)) as [E2 X2]. split; auto. eapply ext_trans; eauto.
Qed.
Lemma sim_ret {A} (a : A) : sim (mret a) (sret a).
Proof. intros st H. split; auto. apply ext_refl. auto. Qed.
Lemma sim_panic {A} : sim (@mpanic A) spanic.
Proof. intros st H. split; auto. apply ext_refl. auto. Qed.
Lemma sim_bind {A B} (x : M A) (y : MM A) (f : A -> M B) (g : A -> MM B) : sim x y -> (forall a, sim (f a) (g a)) -> sim (mbind x f) (sbind y g).
Proof. intros H1 H2 st HM. apply simat_bind; auto. intros a st1 _ HM1. apply H2. auto. Qed.

(** steps that leave the byte fields alone *)
Definition keeps_bytes {A} (x : M A) : Prop := forall e,
  m_json (e_msg (snd (x e))) = m_json (e_msg e) /\ m_json_rel (e_msg (snd (x e))) = m_json_rel (e_msg e).
Lemma keeps_keeps {A} (x : M A) : keeps x -> keeps_bytes x.
Proof. intros H e. rewrite H. auto. Qed.
Lemma with_bytes_id m a b : m_json m = a -> m_json_rel m = b -> with_bytes m a b = m.
Proof. destruct m; simpl; intros <- <-; reflexivity. Qed.
Lemma sim_lift {A} (x : M A) : keeps_bytes x -> sim x (lift x).
Proof.
  intros HK st HM. unfold simat, lift. specialize (HK (view st)). destruct (x (view st)) as [o e]. simpl in *. destruct HK as [H1 H2]. split.
  - f_equal. unfold view. simpl. rewrite with_bytes_id by auto. destruct e; auto.
  - split; auto. split; [exists []; simpl; rewrite app_nil_r; auto|]. exact HM.
Qed.

Section WithLib.
Variable L : Lib.
Variable ord : order.
Variable G : memory.

Lemma sim_and es ss : Forall2 sim es ss -> forall acc, sim (and_loop es acc) (sand_loop ss acc).
Proof.
  induction 1; intro acc; cbn [and_loop sand_loop]; [apply sim_ret|]. apply sim_bind; auto. intros [[|] e]; [apply IHForall2|apply sim_ret].
Qed.
Lemma sim_or es ss : Forall2 sim es ss -> forall out acc, sim (or_loop es out acc) (sor_loop ss out acc).
Proof.
  induction 1; intros out acc; cbn [or_loop sor_loop]; [apply sim_ret|]. apply sim_bind; auto. intros [flag e]. apply IHForall2.
Qed.

Section Loops.
Context {V W : Type}.
Variable R : heap -> V -> W -> Prop.
Hypothesis stable : forall h more v w, R h v w -> R (h ++ more)%list v w.
Variable set : V -> M unit.
Variable sset : W -> MM unit.
Hypothesis sets : forall v w st, in_memory st -> R (s_heap st) v w -> simat (set v) (sset w) st.
Variable inner : M (bool * extra).
Variable sinner : MM (bool * extra).
Hypothesis inners : sim inner sinner.

Lemma stables st st' vals ws : ext st st' -> Forall2 (R (s_heap st)) vals ws -> Forall2 (R (s_heap st')) vals ws.
Proof. intros (_ & (more & E) & _) H. rewrite E. induction H; constructor; auto. Qed.

Lemma sim_any getx sgetx all : match getx, sgetx with Some g, Some g' => sim g g' | None, None => True | _, _ => False end ->
  forall vals ws result acc st, in_memory st -> Forall2 (R (s_heap st)) vals ws ->
  simat (any_loop set getx all inner vals result acc) (sany_loop sset sgetx all sinner ws result acc) st.
Proof.
  intros HG vals. induction vals as [|v vals IH]; intros ws result acc st HM HF; inversion HF as [|? w ? ws' HR HF']; subst; cbn [any_loop sany_loop].
  - apply sim_ret. auto.
  - apply simat_bind; [apply sets; auto|]. intros _ st1 X1 HM1. apply simat_bind; [apply inners; auto|]. intros [flag y] st2 X2 HM2.
    assert (HF2 : Forall2 (R (s_heap st2)) vals ws') by (eapply stables; [exact X2|eapply stables; [exact X1|exact HF']]).
    destruct flag; [|apply IH; auto].
    apply simat_bind.
    + destruct getx as [g|], sgetx as [g'|]; try contradiction; [|apply sim_ret; auto]. apply sim_bind; auto. intro. apply sim_ret.
    + intros acc' st3 X3 HM3. destruct all; [|apply sim_ret; auto]. apply IH; auto. eapply stables; [exact X3|exact HF2].
Qed.

Lemma sim_all : forall vals ws st, in_memory st -> Forall2 (R (s_heap st)) vals ws ->
  simat (all_loop set inner vals) (sall_loop sset sinner ws) st.
Proof.
  intros vals. induction vals as [|v vals IH]; intros ws st HM HF; inversion HF as [|? w ? ws' HR HF']; subst; cbn [all_loop sall_loop].
  - apply sim_ret. auto.
  - apply simat_bind; [apply sets; auto|]. intros _ st1 X1 HM1. apply simat_bind; [apply inners; auto|]. intros [flag y] st2 X2 HM2.
    destruct flag; [|apply sim_ret; auto]. apply IH; auto. eapply stables; [exact X2|eapply stables; [exact X1|exact HF']].
Qed.

Lemma sim_quant_loop q (a : aanode L) g sg : sim g sg -> forall vals ws st, in_memory st -> Forall2 (R (s_heap st)) vals ws ->
  simat (quant_loop L q a set g inner vals) (squant_loop L q a sset sg sinner ws) st.
Proof.
  intros HG vals ws st HM HF. destruct q; cbn [quant_loop squant_loop].
  - apply sim_any; auto. destruct (r_paths (a_ret a)); auto.
  - apply sim_all; auto.
Qed.
End Loops.

(** ** Memory *)
Definition with_heap (st : mst) (h : heap) : mst := mkMst (s_msg st) (s_tick st) h (s_doc st) (s_rel st).

Lemma length_set_array h i a : List.length (set_array h i a) = List.length h.
Proof. revert i. induction h; intros [|i]; simpl; auto. Qed.
Lemma nth_set_same h i a : i < List.length h -> nth_error (set_array h i a) i = Some a.
Proof. revert i. induction h; intros [|i] H; simpl in *; auto; try lia. apply IHh. lia. Qed.
Lemma nth_set_other h i j a : j <> i -> nth_error (set_array h i a) j = nth_error h j.
Proof. revert i j. induction h; intros [|i] [|j] H; simpl in *; auto; try contradiction. Qed.
Lemma set_array_app h0 more i a : List.length h0 <= i -> set_array (h0 ++ more)%list i a = (h0 ++ set_array more (i - List.length h0) a)%list.
Proof. revert i. induction h0; intros i H; simpl in *; [rewrite Nat.sub_0_r; auto|]. destruct i; [lia|]. simpl. f_equal. apply IHh0. lia. Qed.
Lemma nth_array h i a : nth_error h i = Some a -> array h i = a.
Proof. intro E. unfold array. apply nth_error_nth. auto. Qed.
Lemma content_same h h' s : nth_error h' (sl_arr s) = nth_error h (sl_arr s) -> in_heap h s -> in_heap h' s /\ content h' s = content h s.
Proof.
  intros E (a & Ea & H). split.
  - exists a. split; auto. congruence.
  - unfold content. rewrite (nth_array _ _ _ Ea), (nth_array h' _ a) by congruence. auto.
Qed.

Lemma alloc_spec x st : exists h', alloc G x st = (Some (mkSlice (List.length (s_heap st)) 0 (String.length x)), with_heap st h') /\
  h' = (s_heap st ++ [(x ++ spare G x)%string])%list /\
  in_heap h' (mkSlice (List.length (s_heap st)) 0 (String.length x)) /\ content h' (mkSlice (List.length (s_heap st)) 0 (String.length x)) = x.
Proof.
  exists (s_heap st ++ [(x ++ spare G x)%string])%list. split; [reflexivity|]. split; auto.
  assert (E : nth_error (s_heap st ++ [(x ++ spare G x)%string])%list (List.length (s_heap st)) = Some (x ++ spare G x)).
  { rewrite nth_error_app2 by lia. rewrite Nat.sub_diag. reflexivity. }
  split.
  - exists (x ++ spare G x). split; auto. simpl. rewrite length_app. lia.
  - unfold content, sl_arr, sl_off, sl_len. rewrite (nth_array _ _ _ E). simpl. apply take_app_len. auto.
Qed.

Lemma append_spec s x st : in_heap (s_heap st) s -> exists s' h', append_to G s x st = (Some s', with_heap st h') /\
  in_heap h' s' /\ content h' s' = content (s_heap st) s ++ x /\
  (forall r, in_heap (s_heap st) r -> sl_arr r <> sl_arr s -> in_heap h' r /\ content h' r = content (s_heap st) r) /\
  (forall h0 more, s_heap st = (h0 ++ more)%list -> List.length h0 <= sl_arr s -> List.length h0 <= sl_arr s' /\ exists more', h' = (h0 ++ more')%list) /\
  (sl_arr s' = sl_arr s \/ sl_arr s' = List.length (s_heap st)).
Proof.
  intro HI. pose proof HI as HI'. apply in_heap_iff in HI'. destruct HI' as (a & b & c & E & Ha & Hb & Hc).
  assert (LA : sl_arr s < List.length (s_heap st)) by (apply nth_error_Some; congruence).
  unfold append_to, sbind, sstate. rewrite (nth_array _ _ _ E). destruct (_ <=? _)%nat eqn:LE.
  - apply Nat.leb_le in LE. rewrite !length_app in LE. cbn [set_heap sret].
    eexists _, _. split; [reflexivity|].
    set (h' := set_array _ _ _).
    assert (E' : nth_error h' (sl_arr s) = Some (a ++ (b ++ x) ++ drop (String.length x) c)).
    { unfold h'. rewrite nth_set_same by auto. f_equal. unfold overwrite. rewrite <- !append_assoc'.
      rewrite take_app_len by (rewrite length_app; lia). rewrite !append_assoc'. do 3 f_equal.
      rewrite <- append_assoc'. rewrite <- Ha, <- Hb, <- length_app. clear. generalize (a ++ b). intro y. induction y; simpl; auto. }
    split; [|split; [|split; [|split]]].
    + exists (a ++ (b ++ x) ++ drop (String.length x) c). split; auto. simpl. rewrite !length_app. lia.
    + rewrite Hc. apply (content_middle _ _ a _ (drop (String.length x) c)); simpl; auto. rewrite length_app. lia.
    + intros r Hr Hn. apply content_same; auto. unfold h'. rewrite nth_set_other by auto. auto.
    + intros h0 more Eh Hl. split; [exact Hl|]. unfold h'. rewrite Eh, set_array_app by auto. eauto.
    + left. reflexivity.
  - destruct (alloc_spec (content (s_heap st) s ++ x) st) as (h' & EA & Eh & Hi & Hco). rewrite EA. eexists _, h'. split; [reflexivity|].
    split; auto. split; auto. split; [|split].
    + intros r Hr _. subst h'. split; [apply in_heap_more|apply content_more]; auto.
    + intros h0 more E0 Hl. cbn [sl_arr]. split; [rewrite E0, app_length; lia|]. subst h'. rewrite E0, <- app_assoc. eauto.
    + right. reflexivity.
Qed.

Lemma get_spec d path st : well_placed L G -> in_heap (s_heap st) d -> 
  (get_slice G d path st = (Some None, st) /\ js_get_opt L (content (s_heap st) d) path = None) \/
  exists t h', get_slice G d path st = (Some (Some t), with_heap st h') /\
  (exists more, h' = (s_heap st ++ more)%list) /\ in_heap h' t /\ js_get_opt L (content (s_heap st) d) path = Some (content h' t) /\
  (always_new G -> sl_arr t = List.length (s_heap st)).
Proof.
  intros HW HI. unfold get_slice, sbind, sstate. specialize (HW (content (s_heap st) d) path).
  unfold js_get_opt. destruct (js_get L (content (s_heap st) d) path) as [bytes [|]] eqn:EJ; destruct (get_place G (content (s_heap st) d) path) as [[off len|x]|] eqn:EP; try contradiction.
  - left. auto.
  - right. destruct HW as (bf & af & Ec & H1 & H2).
    apply in_heap_iff in HI. destruct HI as (a & b & c & E & Ha & Hb & Hc). rewrite Hc in Ec. subst b.
    exists (mkSlice (sl_arr d) (sl_off d + off) len), (s_heap st). split; [destruct st; reflexivity|]. split; [exists []; rewrite app_nil_r; auto|].
    assert (E2 : nth_error (s_heap st) (sl_arr d) = Some ((a ++ bf) ++ bytes ++ (af ++ c))) by (rewrite E, !append_assoc'; auto).
    split; [|split].
    + exists ((a ++ bf) ++ bytes ++ (af ++ c)). split; auto. simpl. rewrite !length_app. lia.
    + f_equal. symmetry. eapply content_middle; simpl; [exact E2|rewrite length_app; lia|auto].
    + intro HN. exfalso. eapply HN; eauto.
  - right. subst x. destruct (alloc_spec bytes st) as (h' & EA & Eh & Hi & Hco). rewrite EA.
    eexists _, h'. split; [reflexivity|]. split; [eauto|]. split; auto. split; auto. f_equal. auto.
Qed.

(** ** The bytes of the parents *)
Definition acc_at (h : heap) (acc : string) (accs : option slice) : Prop :=
  match accs with None => acc = "" | Some s => in_heap h s /\ content h s = acc end.

Definition gathered (h0 : heap) (st : mst) (o : option (string * bool)) (r : option (option slice * bool) * mst) : Prop :=
  exists more, snd r = with_heap st (h0 ++ more)%list /\
  match o with
  | None => fst r = None
  | Some (acc, failed) => exists accs, fst r = Some (accs, failed) /\ acc_at (h0 ++ more)%list acc accs
  end.

Definition in_array (h0 : heap) (st : mst) : Prop :=
  (forall s, s_doc st = Some s -> in_heap h0 s) /\ (forall s, s_rel st = Some s -> in_heap h0 s).

(** the document a parent path is looked up in, in both models *)
Lemma parent_doc p st h0 more : in_array h0 st -> s_heap st = (h0 ++ more)%list ->
  exists d path, (if relative_parent p then (s_rel st, bytes_parent p) else (s_doc st, p)) = (d, path) /\
  (if relative_parent p then (m_json_rel (e_msg (view (with_heap st h0))), bytes_parent p) else (m_json (e_msg (view (with_heap st h0))), p)) = (option_map (content h0) d, path) /\
  (forall s, d = Some s -> in_heap h0 s).
Proof. intros [H1 H2] E. destruct (relative_parent p); eexists _, _; split; try reflexivity; split; auto. Qed.

Lemma gather_new : well_placed L G -> always_new G -> forall ps h0 acc accs failed st more,
  in_array h0 st -> s_heap st = (h0 ++ more)%list -> acc_at (s_heap st) acc accs ->
  (forall s, accs = Some s -> List.length h0 <= sl_arr s) ->
  gathered h0 st (gather L ps (e_msg (view (with_heap st h0))) acc failed) (gather_slices G ps accs failed st).
Proof.
  intros HW HN ps h0. induction ps as [|p ps IH]; intros acc accs failed st more HA Eh HC HO.
  - exists more. rewrite <- Eh. split; [destruct st; reflexivity|]. cbn [gather gather_slices sret fst]. eauto.
  - destruct (parent_doc p st h0 more HA Eh) as (d & path & E1 & E2 & Hd).
    cbn [gather gather_slices]. unfold sbind at 1, sstate. rewrite E1, E2. destruct d as [d|]; cbn [option_map].
    2:{ exists more. rewrite <- Eh. split; [destruct st; reflexivity|reflexivity]. }
    specialize (Hd d eq_refl).
    assert (Hd' : in_heap (s_heap st) d) by (rewrite Eh; apply in_heap_more; auto).
    assert (Ec : content (s_heap st) d = content h0 d) by (rewrite Eh; apply content_more; auto).
    destruct (get_spec d path st HW Hd') as [[EG EJ]|(t & h' & EG & (m1 & Em) & Ht & EJ & Hnew)]; rewrite Ec in EJ; rewrite EJ; unfold sbind at 1; rewrite EG.
    + eapply IH; eauto.
    + specialize (Hnew HN). assert (Eh' : h' = (h0 ++ (more ++ m1))%list) by (rewrite Em, Eh, app_assoc; auto).
      set (st' := with_heap st h').
      assert (HA' : in_array h0 st') by exact HA.
      assert (HT : List.length h0 <= sl_arr t) by (rewrite Hnew, Eh, app_length; lia).
      change (with_heap st h0) with (with_heap st' h0).
      assert (FIRST : acc = "" -> gathered h0 st
        (gather L ps (e_msg (view (with_heap st' h0))) (if acc =? "" then content h' t else if content h' t =? "" then acc else acc ++ "," ++ content h' t) false)
        (gather_slices G ps (Some t) false st')).
      { intros ->. cbn [String.eqb]. change (gathered h0 st) with (gathered h0 st'). eapply IH; [exact HA'|exact Eh'|split; auto|]. intros s Es. inversion Es; subst; auto. }
      destruct accs as [[ar of ln]|]; [|apply FIRST; exact HC].
      destruct HC as [Hs Hsc]. destruct ln as [|ln].
      { apply FIRST. apply content_length in Hs. rewrite Hsc in Hs. destruct acc; [auto|discriminate]. }
      assert (NE : acc <> "") by (intros ->; apply content_length in Hs; rewrite Hsc in Hs; discriminate).
      rewrite (proj2 (String.eqb_neq acc "") NE).
      set (s := mkSlice ar of (S ln)) in *. specialize (HO s eq_refl).
      assert (Hs' : in_heap h' s) by (rewrite Em; apply in_heap_more; auto).
      assert (Hsc' : content h' s = acc) by (rewrite Em, content_more; auto).
      destruct (Nat.eqb_spec (sl_len t) 0) as [Z|NZ].
      { assert (Et : content h' t = "") by (apply content_length in Ht; destruct (content h' t); auto; simpl in Ht; lia).
        rewrite Et. cbn [String.eqb]. change (gathered h0 st) with (gathered h0 st'). eapply IH; [exact HA'|exact Eh'|split; auto|]. intros s0 Es. inversion Es; subst s0; auto. }
      assert (NT : content h' t <> "") by (intro Q; apply content_length in Ht; rewrite Q in Ht; simpl in Ht; lia).
      rewrite (proj2 (String.eqb_neq _ _) NT).
      destruct (append_spec s "," st' Hs') as (a1 & h1 & EA1 & I1 & C1 & O1 & B1 & W1).
      unfold sbind at 1. rewrite EA1. unfold sbind at 1. cbn [fst snd].
      destruct (O1 t Ht) as [It1 Ct1]. { destruct Hs as (z & Hz & _). assert (sl_arr s < List.length (s_heap st)) by (apply nth_error_Some; congruence). lia. }
      destruct (B1 h0 _ Eh' HO) as [Ha1 (m2 & Eh1)].
      change (s_heap (with_heap st' h1)) with h1. rewrite Ct1. change (s_heap st') with h' in *.
      destruct (append_spec a1 (content h' t) (with_heap st' h1) I1) as (a2 & h2 & EA2 & I2 & C2 & O2 & B2 & W2).
      unfold sbind at 1. rewrite EA2. change (s_heap (with_heap st' h1)) with h1 in *.
      destruct (B2 h0 _ Eh1 Ha1) as [Ha2 (m3 & Eh2)].
      change (with_heap (with_heap st' h1) h2) with (with_heap st' h2).
      change (with_heap st' h0) with (with_heap (with_heap st' h2) h0). change (gathered h0 st) with (gathered h0 (with_heap st' h2)).
      eapply IH; [exact HA|exact Eh2| |].
      * split; [exact I2|]. change (content h2 a2 = acc ++ "," ++ content h' t). rewrite C2, C1, Hsc', append_assoc'. auto.
      * intros s0 Es. inversion Es; subst s0; auto.
Qed.

Lemma gather_one : well_placed L G -> forall ps st, List.length ps <= 1 -> in_memory st ->
  gathered (s_heap st) st (gather L ps (e_msg (view st)) "" true) (gather_slices G ps None true st).
Proof.
  intros HW ps st HL HM. destruct ps as [|p [|]]; [| |simpl in HL; lia].
  - exists []. rewrite app_nil_r. split; [destruct st; reflexivity|]. exists None. split; reflexivity.
  - assert (Eh : s_heap st = (s_heap st ++ [])%list) by (rewrite app_nil_r; auto).
    destruct (parent_doc p st (s_heap st) [] HM Eh) as (d & path & E1 & E2 & Hd).
    replace (with_heap st (s_heap st)) with st in E2 by (destruct st; reflexivity).
    cbn [gather gather_slices]. unfold sbind at 1, sstate. rewrite E1, E2. destruct d as [d|]; cbn [option_map].
    2:{ exists []. rewrite <- Eh. split; [destruct st; reflexivity|reflexivity]. }
    destruct (get_spec d path st HW (Hd d eq_refl)) as [[EG EJ]|(t & h' & EG & (m1 & Em) & Ht & EJ & _)]; rewrite EJ; unfold sbind at 1; rewrite EG.
    + exists []. rewrite <- Eh. split; [destruct st; reflexivity|]. exists None. split; reflexivity.
    + exists m1. rewrite <- Em. split; [reflexivity|]. exists (Some t). split; [reflexivity|]. split; auto.
Qed.

(** ** Steps with related results *)
Definition simr {A B} (P : heap -> A -> B -> Prop) (x : M A) (y : MM B) (st : mst) : Prop :=
  snd (x (view st)) = view (snd (y st)) /\ ext st (snd (y st)) /\
  match fst (x (view st)), fst (y st) with
  | Some a, Some b => P (s_heap (snd (y st))) a b
  | None, None => True
  | _, _ => False
  end.
Lemma simr_eq {A} (x : M A) y st : simr (fun _ => eq) x y st <-> simat x y st.
Proof.
  unfold simr, simat. destruct (x (view st)) as [o e], (y st) as [o' st']. simpl. split.
  - intros (E & X & H). split; auto. destruct o, o'; try contradiction; subst; auto.
  - intros (E & X). inversion E; subst. split; auto. split; auto. destruct o'; auto.
Qed.
Lemma simr_bind {A B C D} P Q (x : M A) (y : MM B) (f : A -> M C) (g : B -> MM D) st : simr P x y st ->
  (forall a b st1, ext st st1 -> in_memory st1 -> P (s_heap st1) a b -> simr Q (f a) (g b) st1) -> simr Q (mbind x f) (sbind y g) st.
Proof.
  intros (E & X & HP) H. unfold simr, mbind, sbind in *. destruct (x (view st)) as [[a|] e], (y st) as [[b|] st1]; simpl in *; try contradiction; auto.
  subst e. destruct (H a b st1 X (ext_memory _ _ X) HP) as (E2 & X2 & H2). split; auto. split; auto. eapply ext_trans; eauto.
Qed.
Lemma simr_ret {A B} (P : heap -> A -> B -> Prop) a b st : in_memory st -> P (s_heap st) a b -> simr P (mret a) (sret b) st.
Proof. intros HM HP. split; [reflexivity|]. split; [apply ext_refl; auto|exact HP]. Qed.

Lemma simr_left {A B} (P : heap -> A -> B -> Prop) (x x' : M A) y st : x (view st) = x' (view st) -> simr P x y st -> simr P x' y st.
Proof. unfold simr. intros <-. auto. Qed.
Lemma simr_state {A B} (P : heap -> A -> B -> Prop) x (k : mst -> MM B) st : simr P x (k st) st -> simr P x (sbind sstate k) st.
Proof. intro H. exact H. Qed.

Lemma view_same st more : in_memory st -> view (with_heap st (s_heap st ++ more)%list) = view st.
Proof.
  intros [H1 H2]. unfold view, with_heap. cbn [s_msg s_tick s_heap s_doc s_rel]. f_equal. f_equal.
  - destruct (s_doc st) as [s|]; auto. simpl. f_equal. apply content_more. auto.
  - destruct (s_rel st) as [s|]; auto. simpl. f_equal. apply content_more. auto.
Qed.
Lemma ext_more st more : in_memory st -> ext st (with_heap st (s_heap st ++ more)%list).
Proof. intros [H1 H2]. split; [reflexivity|]. split; [exists more; reflexivity|]. split; intros s E; apply in_heap_more; [apply H1|apply H2]; exact E. Qed.

Definition bytes_at (h : heap) (v : string) (w : slice) : Prop := in_heap h w /\ content h w = v.
Lemma bytes_at_more h more v w : bytes_at h v w -> bytes_at (h ++ more)%list v w.
Proof. intros [H1 H2]. split; [apply in_heap_more; auto|rewrite content_more; auto]. Qed.

Lemma simr_alloc x st : in_memory st -> simr bytes_at (mret x) (alloc G x) st.
Proof.
  intro HM. destruct (alloc_spec x st) as (h' & EA & Eh & Hi & Hc). unfold simr. rewrite EA. cbn [fst snd mret]. subst h'.
  rewrite view_same by auto. split; auto. split; [apply ext_more; auto|]. split; auto.
Qed.
Lemma simr_allocs xs : forall st, in_memory st -> simr (fun h => Forall2 (bytes_at h)) (mret xs) (allocs G xs) st.
Proof.
  induction xs as [|x xs IH]; intros st HM; cbn [allocs]; [apply simr_ret; auto|].
  change (mret (x :: xs)) with (mbind (mret x) (fun x => mbind (mret xs) (fun xs => mret (x :: xs)))).
  eapply simr_bind; [apply simr_alloc; auto|]. intros a b st1 X1 HM1 Hb. eapply simr_bind; [apply IH; auto|].
  intros l ss st2 X2 HM2 Hl. apply simr_ret; auto. constructor; auto. destruct X2 as (_ & (m & ->) & _). apply bytes_at_more. auto.
Qed.

Lemma take_drop_app n i d c : i + n <= String.length d -> take n (drop i (d ++ c)) = take n (drop i d).
Proof.
  revert d. induction i as [|i IH]; intros d H; simpl.
  - revert d H. induction n; intros [|x d] H; simpl in *; auto; try lia. f_equal. apply IHn. lia.
  - destruct d; simpl in *; [lia|]. apply IH. lia.
Qed.
Lemma split_slices h s d : bytes_at h d s ->
  forall rest i c start, i + String.length rest = String.length d -> (forall j, start = Some j -> j < i) ->
  Forall2 (bytes_at h) (split_objects_from d rest i c start) (split_slices_from (sl_arr s) (sl_off s) rest i c start).
Proof.
  intros [HI HC] rest. apply in_heap_iff in HI. destruct HI as (a & b & cc & E & Ha & Hb & Hc). rewrite HC in Hc. subst b.
  induction rest as [|ch rest IH]; intros i c start HL HS; cbn [split_objects_from split_slices_from]; [constructor|].
  cbn [String.length] in HL.
  destruct (Ascii.eqb ch "{") eqn:EB.
  - set (start' := if (c =? 0)%Z then Some i else start).
    assert (HS' : forall j, start' = Some j -> j <= i) by (unfold start'; intros j Ej; destruct (c =? 0)%Z; [inversion Ej; lia|apply HS in Ej; lia]).
    clearbody start'. assert (HR : forall c', Forall2 (bytes_at h) (split_objects_from d rest (S i) c' start') (split_slices_from (sl_arr s) (sl_off s) rest (S i) c' start')).
    { intro c'. apply IH; [lia|]. intros j Ej. apply HS' in Ej. lia. }
    destruct (_ =? 0)%Z; auto. destruct start' as [j|]; auto. specialize (HS' j eq_refl). constructor; [|apply IH; [lia|intros ? [=]]].
    split.
    + exists (a ++ d ++ cc). split; auto. cbn [sl_off sl_len]. rewrite !length_app. lia.
    + unfold content. cbn [sl_arr sl_off sl_len]. rewrite (nth_array _ _ _ E), <- Ha.
      rewrite <- (take_drop_app _ _ d cc) by lia. f_equal. clear. induction a; simpl; auto.
  - assert (HR : forall c', Forall2 (bytes_at h) (split_objects_from d rest (S i) c' start) (split_slices_from (sl_arr s) (sl_off s) rest (S i) c' start)).
    { intro c'. apply IH; [lia|]. intros j Ej. apply HS in Ej. lia. }
    destruct (_ =? 0)%Z; auto. destruct start as [j|]; auto. specialize (HS j eq_refl). constructor; [|apply IH; [lia|intros ? [=]]].
    split.
    + exists (a ++ d ++ cc). split; auto. cbn [sl_off sl_len]. rewrite !length_app. lia.
    + unfold content. cbn [sl_arr sl_off sl_len]. rewrite (nth_array _ _ _ E), <- Ha.
      rewrite <- (take_drop_app _ _ d cc) by lia. f_equal. clear. induction a; simpl; auto.
Qed.

Definition safe_parents (a : aanode L) : Prop := List.length (a_parents a) <= 1 \/ always_new G.

Lemma gather_safe a st : well_placed L G -> safe_parents a -> in_memory st ->
  simr (fun h '(acc, failed) '(accs, failed') => failed = failed' /\ acc_at h acc accs)
    (mopt (gather L (a_parents a) (e_msg (view st)) "" true)) (gather_slices G (a_parents a) None true) st.
Proof.
  intros HW HS HM.
  assert (HG : gathered (s_heap st) st (gather L (a_parents a) (e_msg (view st)) "" true) (gather_slices G (a_parents a) None true st)).
  { destruct HS as [HL|HN]; [apply gather_one; auto|].
    replace (view st) with (view (with_heap st (s_heap st))) by (destruct st; reflexivity).
    eapply (gather_new HW HN) with (more := []); [exact HM|rewrite app_nil_r; auto|reflexivity|intros ? [=]]. }
  destruct HG as (more & E & H). unfold simr. rewrite E. rewrite view_same by auto.
  destruct (gather L (a_parents a) (e_msg (view st)) "" true) as [[acc failed]|]; cbn [mopt fst snd].
  - destruct H as (accs & Ef & HA). split; [reflexivity|]. split; [apply ext_more; auto|]. cbn [mret mopt fst]. rewrite Ef. split; auto.
  - split; [reflexivity|]. split; [apply ext_more; auto|]. cbn [mpanic mopt fst]. rewrite H. auto.
Qed.

Definition opt_rel {A B} (P : A -> B -> Prop) (x : option A) (y : option B) : Prop :=
  match x, y with Some a, Some b => P a b | None, None => True | _, _ => False end.

Lemma keeps_objects d : keeps (objects_of_map L ord d).
Proof. unfold objects_of_map. keep. Qed.

(** what follows the lookups of the parents *)
Definition tail_bytes (x : string * bool) : M (option (list string)) :=
  let '(data, failed) := x in
  if failed then mret None else
  mdo d <- mopt (unnest L data);
  match d with
  | None => mret None
  | Some d => match split_objects d with Some l => mret (Some l) | None => objects_of_map L ord d end
  end.
Definition tail_slices (x : option slice * bool) : MM (option (list slice)) :=
  let '(acc, failed) := x in
  if failed then sret None else
  sdo st <- sstate;
  let data := match acc with Some s => content (s_heap st) s | None => "" end in
  sdo d <- lift (mopt (unnest L data));
  match d with
  | None => sret None
  | Some d =>
    sdo s <- (if (String.length data <? 2)%nat then
                sret (match acc with Some s => s | None => mkSlice 0 0 0 end)
              else alloc G d);
    match d with
    | EmptyString => sret (Some [])
    | String ch _ =>
      if Ascii.eqb ch "{" then
        sdo r <- lift (objects_of_map L ord d);
        match r with
        | None => sret None
        | Some xs => sdo ss <- allocs G xs; sret (Some ss)
        end
      else sret (Some (split_slices_from (sl_arr s) (sl_off s) d 0 0%Z None))
    end
  end.
Lemma tail_sim acc accs failed st1 : in_memory st1 -> acc_at (s_heap st1) acc accs ->
  simr (fun h => opt_rel (Forall2 (bytes_at h))) (tail_bytes (acc, failed)) (tail_slices (accs, failed)) st1.
Proof.
  intros HM1 HA. unfold tail_bytes, tail_slices. destruct failed; [apply simr_ret; simpl; auto|].
  apply simr_state.
  assert (ED : match accs with Some s => content (s_heap st1) s | None => "" end = acc) by (destruct accs; [apply HA|symmetry; exact HA]).
  cbv zeta. rewrite ED.
  eapply (simr_bind (fun _ a b => a = b /\ unnest L acc = Some a)).
  { pose proof (sim_lift (mopt (unnest L acc)) (keeps_keeps _ (keeps_opt _)) st1 HM1) as HL. apply simr_eq in HL.
    destruct HL as (E & X & H). split; auto. split; auto. unfold lift in *. destruct (unnest L acc); cbn in *; auto. }
  intros d ? st2 X2 HM2 [<- EU]. destruct d as [d|]; [|apply simr_ret; simpl; auto].
  (* the array of the elements *)
  change (simr (fun h => opt_rel (Forall2 (bytes_at h)))
    (mdo d <- mret d; match split_objects d with Some l => mret (Some l) | None => objects_of_map L ord d end)
    (sdo s <- (if (String.length acc <? 2)%nat then sret (match accs with Some s => s | None => mkSlice 0 0 0 end) else alloc G d);
     match d with
     | EmptyString => sret (Some [])
     | String ch _ =>
       if Ascii.eqb ch "{" then
         sdo r <- lift (objects_of_map L ord d);
         match r with
         | None => sret None
         | Some xs => sdo ss <- allocs G xs; sret (Some ss)
         end
       else sret (Some (split_slices_from (sl_arr s) (sl_off s) d 0 0%Z None))
     end) st2).
  eapply (simr_bind (fun h (x : string) s => x = d /\ (d = "" \/ bytes_at h d s))).
  { destruct (String.length acc <? 2)%nat eqn:EL.
    - apply simr_ret; auto. split; auto. unfold unnest in EU. rewrite EL in EU. inversion EU; subst d.
      destruct accs as [s|]; [right|left; exact HA]. destruct X2 as (_ & (m & ->) & _). apply bytes_at_more. exact HA.
    - destruct (simr_alloc d st2 HM2) as (E & X & H). split; auto. split; auto. cbn [mret fst] in *. destruct (fst (alloc G d st2)); auto. }
  intros x s st3 X3 HM3 [-> HD]. destruct d as [|ch d]; [apply simr_ret; simpl; auto|].
  destruct HD as [[=]|HD]. cbn [split_objects]. destruct (Ascii.eqb ch "{").
  - assert (HO : simr (fun _ => eq) (objects_of_map L ord (String ch d)) (lift (objects_of_map L ord (String ch d))) st3)
      by (apply simr_eq, sim_lift; auto; apply keeps_keeps, keeps_objects).
    destruct (objects_of_map L ord (String ch d) (view st3)) as [o e] eqn:EO.
    assert (HB : simr (fun h => opt_rel (Forall2 (bytes_at h)))
      (mdo r <- objects_of_map L ord (String ch d); match r with None => mret None | Some xs => mdo xs <- mret xs; mret (Some xs) end)
      (sdo r <- lift (objects_of_map L ord (String ch d)); match r with None => sret None | Some xs => sdo ss <- allocs G xs; sret (Some ss) end) st3).
    { eapply simr_bind; [exact HO|]. intros r ? st4 X4 HM4 <-. destruct r as [xs|]; [|apply simr_ret; simpl; auto].
      eapply simr_bind; [apply simr_allocs; auto|]. intros l ss st5 X5 HM5 Hl. apply simr_ret; auto. }
    eapply simr_left; [|exact HB]. unfold mbind at 1. rewrite EO. destruct o as [[xs|]|]; reflexivity.
  - apply simr_ret; auto. apply (split_slices _ s _ HD); [reflexivity|intros ? [=]].
Qed.

Lemma element_slices_tail a : element_slices L ord G a = sbind (gather_slices G (a_parents a) None true) tail_slices.
Proof. reflexivity. Qed.
Lemma elements_sim a st : well_placed L G -> safe_parents a -> in_memory st ->
  simr (fun h => opt_rel (Forall2 (bytes_at h))) (elements_bytes L ord a) (element_slices L ord G a) st.
Proof.
  intros HW HS HM. rewrite element_slices_tail.
  change (simr (fun h => opt_rel (Forall2 (bytes_at h))) (mbind (mopt (gather L (a_parents a) (e_msg (view st)) "" true)) tail_bytes)
    (sbind (gather_slices G (a_parents a) None true) tail_slices) st).
  eapply simr_bind; [apply gather_safe; auto|]. intros [acc failed] [accs failed'] st1 X1 HM1 [<- HA]. apply tail_sim; auto.
Qed.

Lemma keeps_bytes_bind {A B} (x : M A) (f : A -> M B) : keeps_bytes x -> (forall a, keeps_bytes (f a)) -> keeps_bytes (mbind x f).
Proof.
  intros H1 H2 e. specialize (H1 e). unfold mbind. destruct (x e) as [[a|] e']; auto. specialize (H2 a e'). simpl in *. intuition congruence.
Qed.
Lemma keeps_bytes_raw v : keeps_bytes (set_raw_relative v).
Proof. intro e. split; reflexivity. Qed.
Lemma keeps_query_all qs doc : keeps (query_all L ord qs doc).
Proof. induction qs as [|q qs IH]; cbn [query_all]; keep; auto; unfold arrange; keep. Qed.
Lemma keeps_elements a : keeps (elements_iface L ord a).
Proof. unfold elements_iface. keep; apply keeps_query_all. Qed.

Lemma sim_set_json v w st : in_memory st -> bytes_at (s_heap st) v w -> simat (set_json_relative (Some v)) (set_rel (Some w)) st.
Proof.
  intros HM [H1 H2]. split.
  - unfold set_json_relative, set_rel, mbind, mmsg, mset, view. cbn. rewrite H2. reflexivity.
  - split; [reflexivity|]. split; [exists []; rewrite app_nil_r; reflexivity|]. destruct HM as [M1 M2]. split; [exact M1|]. simpl. intros s [= <-]. auto.
Qed.

Lemma sim_iface q a n sn : sim n sn -> sim (quant_iface L ord q a n) (squant_iface L ord q a sn).
Proof.
  intro H. unfold quant_iface, squant_iface.
  apply sim_bind; [apply sim_lift, keeps_keeps, keeps_elements|]. intro vals.
  apply sim_bind; [apply sim_lift, keeps_keeps, keeps_msg|]. intro m.
  apply sim_bind.
  - intros st HM. apply (sim_quant_loop (fun _ v w => v = w)); auto.
    + intros v w st1 HM1 ->. apply sim_lift; auto. apply keeps_bytes_raw.
    + apply sim_lift, keeps_keeps. keep.
    + clear. induction vals; constructor; auto.
  - intro r. apply sim_bind; [apply sim_lift, keeps_bytes_raw|]. intro. apply sim_ret.
Qed.

Definition loop_bytes q (a : aanode L) n (vals : option (list string)) : M (bool * extra) :=
  match vals with
  | None => mret (false, [])
  | Some vals =>
    mdo m <- mmsg;
    mdo r <- quant_loop L q a (fun v => set_json_relative (Some v)) (mdo m <- mmsg; mopt (extra_bytes L (a_ret a) m)) n vals;
    mdo _ <- set_json_relative (m_json_rel m);
    mret r
  end.
Definition loop_slices q (a : aanode L) sn (vals : option (list slice)) : MM (bool * extra) :=
  match vals with
  | None => sret (false, [])
  | Some vals =>
    sdo st <- sstate;
    sdo r <- squant_loop L q a (fun v => set_rel (Some v)) (lift (mdo m <- mmsg; mopt (extra_bytes L (a_ret a) m))) sn vals;
    sdo _ <- set_rel (s_rel st);
    sret r
  end.
Lemma loop_sim q a n sn vals ws st1 : sim n sn -> in_memory st1 -> opt_rel (Forall2 (bytes_at (s_heap st1))) vals ws ->
  simr (fun _ => eq) (loop_bytes q a n vals) (loop_slices q a sn ws) st1.
Proof.
  intros H HM1 HR. destruct vals as [vals|], ws as [ws|]; try contradiction; [|apply simr_ret; auto].
  apply simr_eq. set (m := e_msg (view st1)).
  change (simat (mdo r <- quant_loop L q a (fun v => set_json_relative (Some v)) (mdo m <- mmsg; mopt (extra_bytes L (a_ret a) m)) n vals;
     mdo _ <- set_json_relative (m_json_rel m); mret r)
    (sdo r <- squant_loop L q a (fun v => set_rel (Some v)) (lift (mdo m <- mmsg; mopt (extra_bytes L (a_ret a) m))) sn ws;
     sdo _ <- set_rel (s_rel st1); sret r) st1).
  apply simat_bind.
  - apply (sim_quant_loop bytes_at); auto using bytes_at_more, sim_set_json. apply sim_lift, keeps_keeps. keep.
  - intros r st2 X2 HM2. apply simat_bind; [|intros _ st3 _ HM3; apply sim_ret; auto].
    destruct X2 as (_ & (m2 & E2) & _). assert (EM : m_json_rel m = option_map (content (s_heap st1)) (s_rel st1)) by reflexivity. rewrite EM.
    destruct HM1 as [_ M1]. destruct (s_rel st1) as [w|]; cbn [option_map].
    + apply sim_set_json; auto. rewrite E2. apply bytes_at_more. split; auto.
    + split; [reflexivity|]. split; [reflexivity|]. split; [exists []; rewrite app_nil_r; reflexivity|]. destruct HM2 as [M2 _]. split; [exact M2|]. simpl. intros s [=].
Qed.

Lemma sim_bytes q a n sn : well_placed L G -> safe_parents a -> sim n sn -> sim (quant_bytes L ord q a n) (squant_bytes L ord G q a sn).
Proof.
  intros HW HS H st HM. apply simr_eq.
  change (simr (fun _ => eq) (mbind (elements_bytes L ord a) (loop_bytes q a n)) (sbind (element_slices L ord G a) (loop_slices q a sn)) st).
  eapply simr_bind; [apply elements_sim; auto|]. intros vals ws st1 X1 HM1 HR. apply loop_sim; auto.
Qed.

Definition safe (n : node L) : Prop := one_parent n \/ always_new G.
Theorem seval_sim : well_placed L G -> forall n, safe n -> sim (eval L ord n) (seval L ord G n).
Proof.
  intros HW n. induction n as [ns IH|ns IH|n IH|q a n IH| | |c|] using node_ind'; intro HS; cbn [eval seval].
  - apply sim_and. assert (HS' : Forall safe ns).
    { destruct HS as [HS|HS]; [inversion HS as [? HF| | | | | | |]; subst; eapply Forall_impl; [|exact HF]; intros; left; auto|].
      apply Forall_forall. intros. right; auto. }
    clear HS. induction IH; inversion HS'; subst; constructor; auto.
  - apply sim_or. assert (HS' : Forall safe ns).
    { destruct HS as [HS|HS]; [inversion HS as [|? HF| | | | | |]; subst; eapply Forall_impl; [|exact HF]; intros; left; auto|].
      apply Forall_forall. intros. right; auto. }
    clear HS. induction IH; inversion HS'; subst; constructor; auto.
  - apply sim_bind; [apply IH; destruct HS as [HS|HS]; [inversion HS; left; auto|right; auto]|]. intros [flag x]. apply sim_ret.
  - assert (HN : sim (eval L ord n) (seval L ord G n)) by (apply IH; destruct HS as [HS|HS]; [inversion HS; left; auto|right; auto]).
    assert (HP : safe_parents a) by (destruct HS as [HS|HS]; [inversion HS; left; auto|right; auto]).
    apply sim_bind; [apply sim_lift, keeps_keeps, keeps_msg|]. intro m.
    destruct (m_raw m); [destruct (a_prep a)|]; auto using sim_iface, sim_bytes.
  - apply sim_ret.
  - apply sim_ret.
  - apply sim_lift, keeps_keeps, keeps_condition.
  - apply sim_panic.
Qed.

(** ** Two parents in the same document *)
Lemma content_overwrite h d a b c : nth_error h (sl_arr d) = Some (a ++ b ++ c) -> String.length a = sl_off d -> String.length b = sl_len d ->
  forall i x, i + String.length x <= String.length b ->
  nth_error (set_array h (sl_arr d) (overwrite (a ++ b ++ c) (sl_off d + i) x)) (sl_arr d) = Some (a ++ (take i b ++ x ++ drop (i + String.length x) b) ++ c).
Proof.
  intros E Ha Hb i x Hi. rewrite nth_set_same by (apply nth_error_Some; congruence). f_equal. unfold overwrite. rewrite <- Ha.
  assert (T : take (String.length a + i) (a ++ b ++ c) = a ++ take i b).
  { rewrite <- (take_drop_split i b) at 1 by lia. rewrite append_assoc', <- append_assoc'. apply take_app_len. rewrite length_app, length_take by lia. auto. }
  assert (D : drop (String.length a + i + String.length x) (a ++ b ++ c) = drop (i + String.length x) b ++ c).
  { rewrite <- (take_drop_split (i + String.length x) b) at 1 by lia. rewrite append_assoc', <- append_assoc'. apply drop_app_len. rewrite length_app, length_take by lia. lia. }
  rewrite T, D, !append_assoc'. auto.
Qed.

Lemma overwritten_bytes q a n st d p1 p2 o1 l1 o2 l2 : well_placed L G -> one_parent n ->
  in_memory st -> s_doc st = Some d -> a_parents a = [p1; p2] -> relative_parent p1 = false -> relative_parent p2 = false ->
  forall doc, content (s_heap st) d = doc ->
  get_place G doc p1 = Some (Within o1 (S l1)) -> get_place G doc p2 = Some (Within o2 (S l2)) ->
  let i := o1 + S l1 in
  i + 1 + S l2 <= String.length doc ->
  let doc1 := take i doc ++ "," ++ drop (i + 1) doc in
  m_json (e_msg (view (snd (squant_bytes L ord G q a (seval L ord G n) st)))) =
    Some (take i doc ++ "," ++ take (S l2) (drop o2 doc1) ++ drop (i + 1 + S l2) doc).
Proof.
  intros HW HO HM HD HP R1 R2 doc HC G1 G2 i HI doc1.
  assert (Hd : in_heap (s_heap st) d) by (exact (proj1 HM d HD)).
  assert (Q2 : o2 + S l2 <= String.length doc).
  { pose proof (HW doc p2) as W. rewrite G2 in W. destruct (js_get L doc p2) as [bytes [|]]; [contradiction|]. destruct W as (x & y & E & E1 & E2). rewrite E, !length_app. lia. }
  apply in_heap_iff in Hd. destruct Hd as (x & b & y & E & Hx & Hb & Hc). rewrite HC in Hc. subst b.
  set (h1 := set_array (s_heap st) (sl_arr d) (overwrite (x ++ doc ++ y) (sl_off d + i) ",")).
  assert (E1 : nth_error h1 (sl_arr d) = Some (x ++ doc1 ++ y)).
  { unfold h1, doc1. rewrite (content_overwrite _ _ _ _ _ E Hx Hb) by (simpl; lia). reflexivity. }
  assert (L1 : String.length doc1 = String.length doc) by (unfold doc1; rewrite !length_app, length_take, length_drop by lia; simpl; lia).
  set (t := take (S l2) (drop o2 doc1)).
  assert (Lt : String.length t = S l2) by (unfold t; rewrite length_take; auto; rewrite length_drop; lia).
  set (h2 := set_array h1 (sl_arr d) (overwrite (x ++ doc1 ++ y) (sl_off d + (i + 1)) t)).
  assert (E2 : nth_error h2 (sl_arr d) = Some (x ++ (take (i + 1) doc1 ++ t ++ drop (i + 1 + S l2) doc1) ++ y)).
  { unfold h2. rewrite (content_overwrite _ _ _ _ _ E1 Hx) by lia. rewrite Lt. reflexivity. }
  assert (T1 : take (i + 1) doc1 = take i doc ++ ",").
  { unfold doc1. rewrite <- append_assoc'. apply take_app_len. rewrite length_app, length_take by lia. reflexivity. }
  assert (D1 : drop (i + 1 + S l2) doc1 = drop (i + 1 + S l2) doc).
  { unfold doc1. rewrite <- append_assoc'. rewrite <- (take_drop_split (i + 1) doc) at 3 by lia.
    assert (DD : forall k u v w, String.length u = k -> String.length v = k -> forall j, drop (k + j) (u ++ w) = drop (k + j) (v ++ w)).
    { clear. intros k u. revert k. induction u as [|c u IH]; intros k [|c' v] w Hu Hv j; simpl in *; subst; try discriminate; auto. simpl. apply IH; auto. }
    apply DD; [rewrite length_app, length_take by lia; reflexivity|apply length_take; lia]. }
  rewrite T1, D1, append_assoc' in E2.
  set (doc2 := take i doc ++ "," ++ t ++ drop (i + 1 + S l2) doc) in *.
  assert (E2' : nth_error h2 (sl_arr d) = Some (x ++ doc2 ++ y)) by (rewrite E2; unfold doc2; rewrite !append_assoc'; auto).
  assert (L2 : String.length doc2 = String.length doc) by (unfold doc2; rewrite !length_app, length_take, length_drop by lia; simpl String.length; lia).
  (* the lookups *)
  set (s1 := mkSlice (sl_arr d) (sl_off d + o1) (S l1)). set (s2 := mkSlice (sl_arr d) (sl_off d + o2) (S l2)).
  set (s3 := mkSlice (sl_arr d) (sl_off d + o1) (S l1 + 1)).
  assert (A1 : append_to G s1 "," st = (Some s3, with_heap st h1)).
  { unfold append_to, sbind, sstate. cbn [sl_arr sl_off sl_len s1]. rewrite (nth_array _ _ _ E).
    rewrite (proj2 (Nat.leb_le _ _)) by (rewrite !length_app; unfold i in HI; simpl String.length; lia).
    unfold set_heap, sret. unfold s3, with_heap, h1. do 3 f_equal. f_equal. unfold i. lia. }
  assert (C2 : content h1 s2 = t).
  { unfold content, s2. cbn [sl_arr sl_off sl_len]. rewrite (nth_array _ _ _ E1), <- Hx. unfold t. rewrite <- (take_drop_app _ _ doc1 y) by lia.
    f_equal. clear. induction x; simpl; auto. }
  assert (A2 : append_to G s3 t (with_heap st h1) = (Some (mkSlice (sl_arr d) (sl_off d + o1) (S l1 + 1 + S l2)), with_heap st h2)).
  { unfold append_to, sbind, sstate. cbn [sl_arr sl_off sl_len s3 s_heap with_heap]. rewrite (nth_array _ _ _ E1).
    rewrite (proj2 (Nat.leb_le _ _)) by (rewrite !length_app; unfold i in HI; rewrite Lt; lia).
    unfold set_heap, sret. rewrite Lt. unfold with_heap, h2. cbn [s_msg s_tick s_doc s_rel]. do 3 f_equal. f_equal. unfold i. lia. }
  assert (GA : gather_slices G (a_parents a) None true st = (Some (Some (mkSlice (sl_arr d) (sl_off d + o1) (S l1 + 1 + S l2)), false), with_heap st h2)).
  { rewrite HP. cbn [gather_slices]. rewrite R1, R2. unfold sbind at 1, sstate at 1. rewrite HD. unfold sbind at 1. unfold get_slice at 1, sbind at 1, sstate at 1.
    rewrite HC, G1. cbn [sret]. unfold sbind at 1, sstate at 1. rewrite HD. unfold sbind at 1. unfold get_slice at 1, sbind at 1, sstate at 1. rewrite HC, G2. cbn [sret sl_len Nat.eqb].
    unfold sbind at 1. fold s1 s2. rewrite A1. unfold sbind at 1, sstate at 1. change (s_heap (with_heap st h1)) with h1. rewrite C2. unfold sbind at 1. rewrite A2. reflexivity. }
  (* the rest of the evaluation *)
  set (st2 := with_heap st h2) in *.
  assert (IN : forall s, in_heap (s_heap st) s -> in_heap h2 s).
  { intros s (z & Ez & Hz). destruct (Nat.eq_dec (sl_arr s) (sl_arr d)) as [Ea|Na].
    - exists (x ++ doc2 ++ y). rewrite Ea. split; auto. rewrite Ea, E in Ez. inversion Ez; subst z. rewrite !length_app in *. lia.
    - exists z. split; auto. unfold h2, h1. rewrite !nth_set_other; auto. }
  assert (HM2 : in_memory st2) by (destruct HM as [M1 M2]; split; intros s Es; apply IN; auto).
  assert (IA : in_heap h2 (mkSlice (sl_arr d) (sl_off d + o1) (S l1 + 1 + S l2))).
  { exists (x ++ doc2 ++ y). split; auto. cbn [sl_off sl_len]. rewrite !length_app. unfold i in HI. lia. }
  assert (X : ext st2 (snd (squant_bytes L ord G q a (seval L ord G n) st))).
  { change (squant_bytes L ord G q a (seval L ord G n)) with (sbind (sbind (gather_slices G (a_parents a) None true) tail_slices) (loop_slices q a (seval L ord G n))).
    unfold sbind at 1. unfold sbind at 1. rewrite GA.
    change (ext st2 (snd (sbind (tail_slices (Some (mkSlice (sl_arr d) (sl_off d + o1) (S l1 + 1 + S l2)), false)) (loop_slices q a (seval L ord G n)) st2))).
    eapply (simr_bind _ (fun _ => eq) _ _ (loop_bytes q a (eval L ord n))).
    - apply (tail_sim (content h2 (mkSlice (sl_arr d) (sl_off d + o1) (S l1 + 1 + S l2)))); auto. split; auto.
    - intros vals ws st3 X3 HM3 HR3. apply loop_sim; auto. apply seval_sim; auto. left; auto. }
  destruct X as (XD & (more & XH) & _). unfold view. cbn [e_msg m_json with_bytes]. rewrite XD, XH. change (s_doc st2) with (s_doc st). rewrite HD.
  cbn [option_map]. f_equal. rewrite content_more by (apply IN; exact (proj1 HM d HD)).
  apply (content_middle _ _ x _ y); auto. congruence.
Qed.

Theorem overwritten q a n st d p1 p2 o1 l1 o2 l2 : well_placed L G -> one_parent n ->
  m_raw (s_msg st) = None -> in_memory st -> s_doc st = Some d -> a_parents a = [p1; p2] -> relative_parent p1 = false -> relative_parent p2 = false ->
  forall doc, content (s_heap st) d = doc ->
  get_place G doc p1 = Some (Within o1 (S l1)) -> get_place G doc p2 = Some (Within o2 (S l2)) ->
  let i := o1 + S l1 in
  i + 1 + S l2 <= String.length doc ->
  let doc1 := take i doc ++ "," ++ drop (i + 1) doc in
  m_json (e_msg (view (snd (seval L ord G (NQuant q a n) st)))) =
    Some (take i doc ++ "," ++ take (S l2) (drop o2 doc1) ++ drop (i + 1 + S l2) doc).
Proof.
  intros HW HO HR HM HD HP R1 R2 doc HC G1 G2 i HI doc1. cbn [seval]. unfold sbind at 1, lift at 1. cbn [mmsg fst snd].
  change (m_raw (e_msg (view st))) with (m_raw (s_msg st)). rewrite HR.
  eapply overwritten_bytes; cbn [s_doc s_heap]; eauto.
Qed.
End WithLib.
