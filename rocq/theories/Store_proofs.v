(** Proofs about stored trees. *)
From Coq Require Import List String Ascii Bool Arith ZArith Permutation Lia.
From Verif Require Import Base GoStr GoStr_facts GoFloat Types Json StrUtils Validate Prepare Parse Marshal Spec_Tree Spec_Glob Spec_Json Json_proofs
  Print_proofs Spec_Leaf Spec_Validate Spec_Load Spec_Names Decode_proofs Load_proofs Load_order Tree_proofs Spec_Copy Copy_proofs Spec_Grammar Grammar_tree
  Strings_proofs Store Spec_Store.
Import ListNotations.
Open Scope string_scope.
Local Arguments String.prefix : simpl never.

(** ** Listing by key *)
Lemma sorted_unique {A} (l l' : list (string * A)) : Permutation l l' -> sorted_keys l -> sorted_keys l' -> l = l'.
Proof.
  intros HP H H'. rewrite <- (sorted_sort l H), <- (sorted_sort l' H'). apply sort_keys_perm; auto. apply sorted_distinct; auto.
Qed.

(** the entries of a map and of its listing *)
Lemma order_in (R : iface -> iface -> Prop) (m m2 m' : list (string * iface)) : Forall2 (fun a b => fst a = fst b /\ R (snd a) (snd b)) m m2 -> Permutation m2 m' ->
  (forall k x, In (k, x) m -> exists x', In (k, x') m' /\ R x x') /\ (forall k x', In (k, x') m' -> exists x, In (k, x) m /\ R x x').
Proof.
  intros HF HP. split.
  - intros k x HI. assert (E : exists x', In (k, x') m2 /\ R x x').
    { clear HP. induction HF as [|a b l l2 (EK & HR) HF IH]; [destruct HI|]. destruct HI as [->|HI].
      - destruct b as [k' x']. cbn in EK, HR. subst k'. exists x'. split; [left; auto|auto].
      - destruct (IH HI) as (x' & HI' & HR'). exists x'. split; [right; auto|auto]. }
    destruct E as (x' & HI' & HR'). exists x'. split; auto. eapply Permutation_in; eauto.
  - intros k x' HI. apply (Permutation_in _ (Permutation_sym HP)) in HI. clear HP.
    induction HF as [|a b l l2 (EK & HR) HF IH]; [destruct HI|]. destruct HI as [->|HI].
    + destruct a as [k' x]. cbn in EK, HR. subst k'. exists x. split; [left; auto|auto].
    + destruct (IH HI) as (x & HI' & HR'). exists x. split; [right; auto|auto].
Qed.
Lemma order_keys (R : iface -> iface -> Prop) (m m2 m' : list (string * iface)) : Forall2 (fun a b => fst a = fst b /\ R (snd a) (snd b)) m m2 -> Permutation m2 m' ->
  Permutation (keys m) (keys m').
Proof.
  intros HF HP. eapply Permutation_trans; [|apply perm_keys; exact HP]. clear HP. unfold keys. induction HF as [|a b l l2 (EK & _) HF IH]; [auto|].
  simpl. rewrite EK. apply perm_skip. auto.
Qed.

(** [key_order] and [reordered] *)
Lemma order_reordered v : forall v', key_order v v' -> reordered v v'.
Proof.
  induction v as [| | | | |l IH|m IH|m IH] using iface_ind'; intros v' H; inversion H as [| | |? l' HF|? m' m2 HF HP HS]; subst; try constructor.
  - clear H. revert l' HF. induction IH; intros l' HF; inversion HF; subst; constructor; auto.
  - eapply ro_map; [|exact HP]. clear H HP HS. revert m2 HF. induction IH; intros m2 HF; inversion HF as [|? ? ? ? (E & HR)]; subst; constructor; auto.
Qed.
Lemma forall2_perm {A B} (R : A -> B -> Prop) l l' m : Permutation l l' -> Forall2 R l m -> exists m', Forall2 R l' m' /\ Permutation m m'.
Proof.
  intro H. revert m. induction H as [|x l l' HP IH|x y l|l1 l2 l3 H1 IH1 H2 IH2]; intros m HF.
  - inversion HF; subst. exists []. split; auto.
  - inversion HF as [|? b ? m' HR HF']; subst. destruct (IH _ HF') as (m'' & HF'' & HP'). exists (b :: m''). split; [constructor; auto|auto].
  - inversion HF as [|? b ? m' HR HF']; subst. inversion HF' as [|? b' ? m'' HR' HF'']; subst. exists (b' :: b :: m''). split; [repeat constructor; auto|constructor].
  - destruct (IH1 _ HF) as (m1 & HF1 & HP1). destruct (IH2 _ HF1) as (m2 & HF2 & HP2). exists m2. split; auto. eapply Permutation_trans; eauto.
Qed.
Lemma reordered_order v : forall v1 v2, reordered v v1 -> key_order v1 v2 -> key_order v v2.
Proof.
  induction v as [| | | | |l IH|m IH|m IH] using iface_ind'; intros v1 v2 H1 H2; inversion H1 as [| | |? l' HF|? m' m2 HF HP]; subst;
    inversion H2 as [| | |? l2 HF2|? m3 m4 HF2 HP2 HS2]; subst; try constructor.
  - clear H1 H2. revert l' l2 HF HF2. induction IH as [|x l HX IH IHl]; intros l' l2 HF HF2; inversion HF; subst; inversion HF2; subst; constructor; eauto.
  - destruct (forall2_perm _ _ _ _ (Permutation_sym HP) HF2) as (m5 & HF5 & HP5).
    apply (ko_map m m3 m5); [|eapply Permutation_trans; [apply Permutation_sym; exact HP5|exact HP2]|auto].
    clear H1 H2 HP HP2 HP5 HF2. revert m2 m5 HF HF5.
    induction IH as [|x l HX IH IHl]; intros m2 m5 HF HF5; inversion HF as [|? ? ? ? (E1 & R1)]; subst; inversion HF5 as [|? ? ? ? (E2 & R2)]; subst; constructor; eauto.
    split; [congruence|]. eapply HX; eauto.
Qed.
Lemma storable_numberless v : storable v -> numberless v.
Proof.
  induction v as [| | | | |l IH|m IH|m IH] using iface_ind'; intro H; inversion H; subst; constructor; auto.
  - rewrite Forall_forall in *. auto.
  - rewrite Forall_forall in *. auto.
Qed.
Lemma reordered_numberless v : forall v', reordered v v' -> numberless v -> numberless v'.
Proof.
  induction v as [| | | | |l IH|m IH|m IH] using iface_ind'; intros v' H HN; inversion H as [| | |? l' HF|? m' m2 HF HP]; subst; auto.
  - inversion HN as [| | |? HL|]; subst. constructor. clear H HN. revert l' HF. induction IH; intros l' HF; inversion HF; inversion HL; subst; constructor; auto.
  - inversion HN as [| | | |? HD HL]; subst. constructor.
    + eapply Permutation_NoDup; [eapply order_keys; eauto|auto].
    + destruct (order_in _ _ _ _ HF HP) as [_ HB]. rewrite Forall_forall in *. intros [k x'] HI. destruct (HB k x' HI) as (x & HI' & HR). cbn [snd].
      exact (IH _ HI' _ HR (HL _ HI')).
Qed.

(** ** Texts *)
Lemma order_fmt L v : forall v', numberless v -> key_order v v' -> go_fmt L v = go_fmt L v'.
Proof.
  induction v as [| | | | |l IH|m IH|m IH] using iface_ind'; intros v' HN H; inversion H as [| | |? l' HF|? m' m2 HF HP HS]; subst; try reflexivity.
  - inversion HN as [| | |? HL|]; subst. cbn [go_fmt]. do 3 f_equal. clear H HN. revert l' HF. induction IH; intros l' HF; inversion HF; inversion HL; subst; simpl; f_equal; auto.
  - inversion HN as [| | | |? HD HL]; subst. cbn [go_fmt]. do 4 f_equal.
    assert (E : map (fun kv => (fst kv, go_fmt L (snd kv))) m = map (fun kv => (fst kv, go_fmt L (snd kv))) m2).
    { clear H HN HP HD HS. revert m2 HF. induction IH; intros m2 HF; inversion HF as [|? ? ? ? (E & HR)]; inversion HL; subst; simpl; f_equal; auto. rewrite E. f_equal. auto. }
    rewrite E. apply sort_keys_perm; [apply Permutation_map; exact HP|]. unfold keys. rewrite <- E, map_map. exact HD.
Qed.
Lemma order_strings ts v' : key_order (strings_value ts) v' -> exists ts', v' = strings_value ts' /\ Permutation ts ts' /\ sorted_keys ts'.
Proof.
  intro H. inversion H as [| | | |? m' m2 HF HP HS]; subst. assert (E : m2 = map (fun kv => (fst kv, GStr (snd kv))) ts).
  { clear -HF. revert m2 HF. induction ts as [|t ts IH]; intros m2 HF; inversion HF as [|? [k x] ? ? (E & HR)]; subst; auto. cbn in E, HR. inversion HR; subst. simpl. f_equal. auto. }
  subst m2. apply Permutation_sym in HP. apply Permutation_map_inv in HP. destruct HP as (ts' & -> & HP). exists ts'. split; auto. split; [auto|].
  clear -HS. induction ts' as [|a [|b l] IH]; [constructor|constructor|]. simpl in HS. inversion HS as [|?|? ? ? HL HR]; subst. constructor; [exact HL|]. apply IH. exact HR.
Qed.
Lemma order_strings_listed ts v' : key_order (strings_value ts) v' -> sorted_keys ts -> v' = strings_value ts.
Proof.
  intros H HS. destruct (order_strings ts v' H) as (ts' & -> & HP & HS'). rewrite (sorted_unique _ _ HP HS HS'). auto.
Qed.
Lemma order_str s v' : key_order (GStr s) v' -> v' = GStr s.
Proof. intro H. inversion H; auto. Qed.
Lemma order_str_inv s v : key_order v (GStr s) -> v = GStr s.
Proof. intro H. inversion H; auto. Qed.
Lemma order_is_map v v' : key_order v v' -> is_map v <-> is_map v'.
Proof. intro H. inversion H; subst; unfold is_map; split; intros [(m0 & E)|(m0 & E)]; try discriminate; eauto. Qed.

(** ** Single inner conditions *)
Lemma order_one_inner v v' : key_order v v' -> one_inner v -> one_inner v'.
Proof.
  intros H (H1 & H2). inversion H as [| | |? l' HF|? m' m2 HF HP HS]; subst; split; intros m0 k k' E; try discriminate E.
  injection E as <-. pose proof (order_keys _ _ _ _ HF HP) as HK. apply Permutation_sym in HK. intros HI HI'.
  exact (H1 m k k' eq_refl (Permutation_in _ HK HI) (Permutation_in _ HK HI')).
Qed.
Lemma order_single v : forall v', key_order v v' -> single v -> single v'.
Proof.
  induction v as [| | | | |l IH|m IH|m IH] using iface_ind'; intros v' H HN; inversion H as [| | |? l' HF|? m' m2 HF HP HS]; subst; auto.
  - inversion HN as [| | | | |? HL| |]; subst. constructor. clear H HN. revert l' HF. induction IH; intros l' HF; inversion HF; inversion HL; subst; constructor; auto.
  - inversion HN as [| | | | | |? HL HO|]; subst. destruct (order_in _ _ _ _ HF HP) as [_ HB]. constructor.
    + rewrite Forall_forall in *. intros [k x'] HI. destruct (HB k x' HI) as (x & HI' & HR). cbn [snd]. exact (IH _ HI' _ HR (HL _ HI')).
    + intros k x' HI HK. destruct (HB k x' HI) as (x & HI' & HR). eapply order_one_inner; eauto.
Qed.

Definition prod_eq_dec (a b : string * string) : {a = b} + {a <> b}.
Proof. decide equality; apply string_dec. Defined.

Section WithLib.
Variable L : Lib.

(** ** Conditions *)
Lemma order_given (is : string -> Prop) m m2 m' : Forall2 (fun a b => fst a = fst b /\ key_order (snd a) (snd b)) m m2 -> Permutation m2 m' ->
  (forall v, given is m v -> exists v', given is m' v' /\ key_order v v') /\ (lacks is m -> lacks is m').
Proof.
  intros HF HP. destruct (order_in _ _ _ _ HF HP) as [HA HB]. split.
  - intros v (k & HK & HI). destruct (HA k v HI) as (x' & HI' & HR). exists x'. split; auto. exists k. auto.
  - intros HL v' (k & HK & HI). destruct (HB k v' HI) as (x & HI' & HR). apply (HL x). exists k. auto.
Qed.
Lemma order_text m m2 m' att method value ret : numberless (GMapS m) ->
  Forall2 (fun a b => fst a = fst b /\ key_order (snd a) (snd b)) m m2 -> Permutation m2 m' ->
  (forall ts, ret = Some ts -> sorted_keys ts) ->
  condition_text L m att method value ret -> condition_text L m' att method value ret.
Proof.
  intros HN HF HP HR [HA HM HV HT]. inversion HN as [| | | |? HD HL]; subst. constructor.
  - destruct (order_given att_key _ _ _ HF HP) as [HG _]. destruct (HG _ HA) as (v' & HG' & HO). apply order_str in HO. subst. auto.
  - destruct (order_given method_key _ _ _ HF HP) as [HG _]. destruct (HG _ HM) as (v' & HG' & HO). apply order_str in HO. subst. auto.
  - destruct (order_given value_key _ _ _ HF HP) as [HG HGL]. destruct HV as [[HV ->]|(v & HV & ->)]; [left; auto|]. right.
    destruct (HG _ HV) as (v' & HG' & HO). exists v'. split; auto. apply order_fmt; auto.
    destruct HV as (k & _ & HI). rewrite Forall_forall in HL. exact (HL _ HI).
  - destruct (order_given return_key _ _ _ HF HP) as [HG HGL]. destruct HT as [[HT ->]|(v & HT & HC)]; [left; auto|]. right.
    destruct (HG _ HT) as (v' & HG' & HO). exists v'. split; auto. destruct HC as [(ts & HE & ->)|(HX & ->)].
    + left. exists ts. split; auto. destruct HE as [->| ->]; [|inversion HO]. left. apply order_strings_listed in HO; auto.
    + right. split; auto. intro HX'. apply HX. apply (order_is_map _ _ HO). auto.
Qed.
Lemma order_condition_keys (ks ks' : list string) : Permutation ks ks' -> condition_keys ks -> condition_keys ks'.
Proof.
  intros HP (a & m & vs & rs & H1 & H2 & H3 & H4 & H5). exists a, m, vs, rs. repeat (split; [auto|]).
  eapply Permutation_trans; [apply Permutation_sym; exact HP|exact H5].
Qed.
Lemma order_returns m m2 m' r : Forall2 (fun a b => fst a = fst b /\ key_order (snd a) (snd b)) m m2 -> Permutation m2 m' ->
  (forall ts, r_orig r = Some ts -> sorted_keys ts) -> quant_returns L m r -> quant_returns L m' r.
Proof.
  intros HF HP HR H. destruct (order_in _ _ _ _ HF HP) as [HA _]. destruct H as [HK|v HI HE|v ts r HI HE HN HS HQ].
  - apply qr_absent. intro HI. apply HK. eapply Permutation_in; [apply Permutation_sym; eapply order_keys; eauto|exact HI].
  - destruct (HA _ _ HI) as (v' & HI' & HO). eapply qr_empty; [exact HI'|]. destruct HE as [->| ->]; inversion HO as [| | | |? m0 m3 HF0 HP0]; subst.
    inversion HF0; subst. apply Permutation_nil in HP0. subst. left. auto.
  - destruct (HA _ _ HI) as (v' & HI' & HO). eapply (qr_given L m' v' ts); auto. destruct HE as [->| ->]; [|inversion HO]. left.
    apply order_strings_listed; auto. apply HR. apply HQ.
Qed.

(** ** Trees *)
Lemma entries_map m es : entries_of (GMapS m) es -> es = m.
Proof. intros [E|E]; [injection E; auto|discriminate]. Qed.
Lemma listed_words kw f c : In (kw, f) (list_words L) -> listed L (f [NCond c]) -> listed L (NCond c).
Proof.
  intros HI HL m HR. apply HL. destruct HI as [E|[E|[E|[]]]]; injection E as _ <-.
  - eapply ri_and; [left; reflexivity|auto].
  - eapply ri_or; [left; reflexivity|auto].
  - apply ri_not. auto.
Qed.
Lemma listed_cond c ret : listed L (NCond c) -> condition_returns L ret (c_ret c) -> forall ts, ret = Some ts -> sorted_keys ts.
Proof. intros HL HR ts ->. apply HL. constructor. apply HR. Qed.


(** the same return values listed by key *)
Lemma returns_relisted strip query m m' r : Permutation m m' -> returns_stored L strip query m r -> exists r', returns_stored L strip query m' r'.
Proof.
  intros HP (H1 & H2 & H3 & H4). destruct (forall2_perm _ _ _ _ HP H3) as (ps & H3' & _). destruct (forall2_perm _ _ _ _ HP H4) as (bs & H4' & _).
  exists (mkRet (Some (map (fun e => (fst e, strip (snd e))) m')) (Some m') ps bs). repeat split; auto.
Qed.
Lemma text_relisted m m2 m' att method value ret : numberless (GMapS m) ->
  Forall2 (fun a b => fst a = fst b /\ key_order (snd a) (snd b)) m m2 -> Permutation m2 m' ->
  condition_text L m att method value ret ->
  exists ret', condition_text L m' att method value ret' /\
    (ret' = ret \/ exists ts ts', ret = Some ts /\ ret' = Some ts' /\ Permutation ts ts' /\ sorted_keys ts').
Proof.
  intros HN HF HP HT. pose proof HT as [HA HM HV HC]. destruct HC as [[HC ->]|(v & HC & [(ts & HE & ->)|(HX & ->)])].
  - exists None. split; [|left; auto]. eapply order_text; eauto. discriminate.
  - destruct (order_given return_key _ _ _ HF HP) as [HG HGL]. destruct (HG _ HC) as (v' & HG' & HO). destruct HE as [->| ->]; [|inversion HO].
    change (GMapS (map (fun e => (fst e, GStr (snd e))) ts)) with (strings_value ts) in HO. destruct (order_strings ts v' HO) as (ts' & -> & HP' & HS').
    exists (Some ts'). split; [|right; exists ts, ts'; auto].
    inversion HN as [| | | |? HD HL]; subst. constructor.
    + destruct (order_given att_key _ _ _ HF HP) as [HGa _]. destruct (HGa _ HA) as (v1 & HG1 & HO1). apply order_str in HO1. subst. auto.
    + destruct (order_given method_key _ _ _ HF HP) as [HGa _]. destruct (HGa _ HM) as (v1 & HG1 & HO1). apply order_str in HO1. subst. auto.
    + destruct (order_given value_key _ _ _ HF HP) as [HGa HGb]. destruct HV as [[HV ->]|(v & HV & ->)]; [left; auto|]. right.
      destruct (HGa _ HV) as (v1 & HG1 & HO1). exists v1. split; auto. apply order_fmt; auto.
      destruct HV as (k & _ & HI). rewrite Forall_forall in HL. exact (HL _ HI).
    + right. exists (strings_value ts'). split; auto. left. exists ts'. split; auto. left. auto.
  - exists (Some []). split; [|left; auto]. eapply order_text; eauto. intros ts E. injection E as <-. constructor.
Qed.
Lemma stored_relisted att method value ret c ts ts' : condition_stored L att method value ret c -> ret = Some ts -> Permutation ts ts' ->
  exists c', condition_stored L att method value (Some ts') c'.
Proof.
  intros [H1 H2 H3 H4 H5 H6 H7 H8 H9] -> HP. cbn [condition_returns] in H9. destruct (returns_relisted _ _ _ _ _ HP H9) as (r' & HR).
  exists (mkCond (c_attr c) (c_method c) (c_value c) (c_num c) (c_lab c) (c_obj c) (c_jp c) r' (c_orig c)). constructor; auto.
Qed.
Lemma condition_relisted m m2 m' att method value ret c : numberless (GMapS m) ->
  Forall2 (fun a b => fst a = fst b /\ key_order (snd a) (snd b)) m m2 -> Permutation m2 m' ->
  condition_text L m att method value ret -> condition_stored L att method value ret c ->
  exists ret' c', condition_text L m' att method value ret' /\ condition_stored L att method value ret' c' /\ (listed L (NCond c) -> c' = c).
Proof.
  intros HN HF HP HT HS. destruct (text_relisted _ _ _ _ _ _ _ HN HF HP HT) as (ret' & HT' & [->|(ts & ts' & -> & -> & HPt & HSt)]).
  - exists ret, c. auto.
  - destruct (stored_relisted _ _ _ _ _ ts ts' HS eq_refl HPt) as (c' & HC').
    assert (HD : sorted_keys ts \/ ~ sorted_keys ts).
    { destruct (list_eq_dec prod_eq_dec ts ts') as [->|HD]; [left; auto|]. right. intro HS'. apply HD. apply sorted_unique; auto. }
    destruct HD as [HD|HD].
    + rewrite (sorted_unique _ _ HPt HD HSt) in HS. exists (Some ts'), c. auto.
    + exists (Some ts'), c'. repeat (split; [auto|]). intro HL. destruct HD. eapply listed_cond; [exact HL|apply HS|reflexivity].
Qed.

Definition relisted (n n' : node L) : Prop := listed L n -> n' = n.
Lemma relisted_list ns ns' : Forall2 relisted ns ns' -> (forall n, In n ns -> listed L n) -> ns' = ns.
Proof. induction 1 as [|n n' ns ns' HR HF IH]; intro HL; [auto|]. f_equal; [apply HR, HL; left; auto|apply IH; intros; apply HL; right; auto]. Qed.
Lemma relisted_last ns ns' d : Forall2 relisted ns ns' -> relisted (last ns d) (last ns' d).
Proof.
  induction 1 as [|n n' ns ns' HR HF IH]; [intros _; auto|]. destruct HF; [exact HR|]. exact IH.
Qed.
Lemma relisted_words kw f ns ns' : In (kw, f) (list_words L) -> Forall2 relisted ns ns' -> relisted (f ns) (f ns').
Proof.
  intros HI HF. destruct HI as [E|[E|[E|[]]]]; injection E as _ <-; intro HL.
  - f_equal. apply relisted_list; auto. intros n HI m HR. apply HL. eapply ri_and; eauto.
  - f_equal. apply relisted_list; auto. intros n HI m HR. apply HL. eapply ri_or; eauto.
  - f_equal. apply (relisted_last ns ns' NNil HF). intros m HR. apply HL. apply ri_not; auto.
Qed.

Lemma quant_relisted m m2 m' r : Forall2 (fun a b => fst a = fst b /\ key_order (snd a) (snd b)) m m2 -> Permutation m2 m' ->
  quant_returns L m r -> exists r', quant_returns L m' r' /\ ((forall ts, r_orig r = Some ts -> sorted_keys ts) -> r' = r).
Proof.
  intros HF HP H. destruct (order_in _ _ _ _ HF HP) as [HA _]. destruct H as [HK|v HI HE|v ts r HI HE HN HS HQ].
  - exists no_ret. split; auto. eapply order_returns; eauto; [discriminate|]. apply qr_absent; auto.
  - exists no_ret. split; auto. eapply order_returns; eauto; [discriminate|]. eapply qr_empty; eauto.
  - destruct (HA _ _ HI) as (v' & HI' & HO). destruct HE as [->| ->]; [|inversion HO]. destruct (order_strings ts v' HO) as (ts' & -> & HP' & HS').
    destruct (list_eq_dec prod_eq_dec ts ts') as [->|HD].
    + exists r. split; auto. apply (qr_given L m' (strings_value ts') ts'); auto. left. reflexivity.
    + destruct (returns_relisted _ _ _ _ _ HP' HQ) as (r' & HR'). exists r'. split.
      * apply (qr_given L m' (strings_value ts') ts'); auto; [left; reflexivity| |].
        -- intros ->. apply Permutation_sym, Permutation_nil in HP'. auto.
        -- eapply Permutation_Forall; eauto.
      * intro HL. destruct HD. apply sorted_unique; auto. apply HL. apply HQ.
Qed.

Theorem relisting v : forall v', key_order v v' -> numberless v -> forall kw n, reads L kw v n -> exists n', reads L kw v' n' /\ relisted n n'.
Proof.
  induction v as [| | | | |l IH|m IH|m IH] using iface_ind'; intros v' HK HN kw n HR.
  1-5: exfalso; inversion HR as [? ? ? ? ? ? ? HE|? ? ? ? ? ? ? ? HE|? ? ? ? HE|? ? ? ? HE| | |? ? ? ? ? ? ? HE]; subst; destruct HE as [HE|HE]; discriminate HE.
  - inversion HK as [| | |? l' HF|]; subst. inversion HN as [| | |? HL|]; subst.
    inversion HR as [? ? ? ? ? ? ? HE|? ? ? ? ? ? ? ? HE|? ? ? ? HE|? ? ? ? HE|x ? EK HX|? ns f HI HX|? ? ? ? ? ? ? HE]; subst;
      try (destruct HE as [HE|HE]; discriminate HE).
    + inversion HF as [|? x' ? l2 HX' HF']; subst. inversion HF'; subst. inversion IH as [|? ? IHx _]; subst. inversion HL; subst.
      destruct (IHx _ HX' ltac:(assumption) _ _ HX) as (n' & HR' & HS). exists n'. split; [apply rd_single; auto|auto].
    + assert (HS : exists ns', Forall2 (reads L "") l' ns' /\ Forall2 relisted ns ns').
      { clear HR HI HK HN. revert l' HF ns HX. induction IH as [|v l HV IH IHl]; intros l' HF ns HX; inversion HF as [|? y ? l2 HY HF']; subst; inversion HX as [|? z ? ns2 HZ HX']; subst; [exists []; split; constructor|].
        inversion HL as [|? ? HLa HLb]; subst. destruct (IHl HLb l2 HF' ns2 HX') as (ns' & HA1 & HA2). destruct (HV y HY HLa "" z HZ) as (n' & HA3 & HA4).
        exists (n' :: ns'). split; constructor; auto. }
      destruct HS as (ns' & H1 & H2). exists (f ns'). split; [apply (rd_list L kw l' ns' f); auto|eapply relisted_words; eauto].
  - inversion HK as [| | | |? m' m2 HF HP HS]; subst. inversion HN as [| | | |? HD HL]; subst. rewrite Forall_forall in IH, HL.
    pose proof (order_keys _ _ _ _ HF HP) as HKS. destruct (order_in _ _ _ _ HF HP) as [HA HB].
    inversion HR as [? es att method value ret c HE HC HT HST HI|? es att method value ret c f HE HC HT HST HI|? k w ? HE HI HX|? k w n0 HE HI HX|x ? EK HX|? ns f HI HX|? es q s r inner HQ HE HNC HLEN HPA HLP HRV HALL HIN]; subst.
    + apply entries_map in HE. subst es. destruct (condition_relisted _ _ _ _ _ _ _ _ HN HF HP HT HST) as (ret' & c' & HT' & HST' & HEQ).
      exists (NCond c'). split; [|intro HLI; rewrite HEQ; auto]. eapply (rd_condition L kw (GMapS m') m'); eauto; [left; auto|]. eapply order_condition_keys; eauto.
    + apply entries_map in HE. subst es. destruct (condition_relisted _ _ _ _ _ _ _ _ HN HF HP HT HST) as (ret' & c' & HT' & HST' & HEQ).
      exists (f [NCond c']). split; [|eapply relisted_words; eauto; constructor; [intro HLI; rewrite HEQ; auto|constructor]].
      eapply (rd_one_condition L kw (GMapS m') m'); eauto; [left; auto|]. eapply order_condition_keys; eauto.
    + apply entries_map in HE. subst m. inversion HF as [|? [k' w'] ? ? (EK & HW) HF']; subst. inversion HF'; subst. apply Permutation_length_1_inv in HP. subst m'.
      cbn in EK, HW. subst k'. destruct (IH (k, w) (or_introl eq_refl) w' HW (HL (k, w) (or_introl eq_refl)) k n HX) as (n' & HR' & HRL).
      exists n'. split; auto. eapply rd_keyword; eauto. left. reflexivity.
    + apply entries_map in HE. subst m. inversion HF as [|? [k' w'] ? ? (EK & HW) HF']; subst. inversion HF'; subst. apply Permutation_length_1_inv in HP. subst m'.
      cbn in EK, HW. subst k'. destruct (IH (k, w) (or_introl eq_refl) w' HW (HL (k, w) (or_introl eq_refl)) k n0 HX) as (n' & HR' & HRL).
      exists (NNot n'). split; [eapply rd_not; eauto; left; reflexivity|]. intro HLI. f_equal. apply HRL. intros m HM. apply HLI. apply ri_not; auto.
    + apply entries_map in HE. subst es. destruct (quant_relisted _ _ _ _ HF HP HRV) as (r' & HRV' & HREQ).
      assert (HIN' : exists inner', ((exists k w, In (k, w) m' /\ inner_key k /\ reads L k w inner') \/ (inner' = NNil /\ forall k, In k (map fst m') -> ~ inner_key k)) /\ relisted inner inner').
      { destruct HIN as [(k & w & HI & HIK & HX)|(-> & HNO)].
        - destruct (HA _ _ HI) as (w' & HI' & HW). destruct (IH _ HI w' HW (HL _ HI) k inner HX) as (n' & HR' & HRL). exists n'. split; auto. left. exists k, w'. auto.
        - exists NNil. split; [|intros _; auto]. right. split; auto. intros k HI. apply HNO. eapply Permutation_in; [apply Permutation_sym; exact HKS|exact HI]. }
      destruct HIN' as (inner' & HIN' & HRL).
      exists (NQuant q (mkAA (replace_all s "jsonpath:" "") [] s r' []) inner'). split.
      * apply (rd_quant L kw (GMapS m') m'); auto.
        -- left. reflexivity.
        -- intro HC. apply HNC. eapply order_condition_keys; [apply Permutation_sym; exact HKS|exact HC].
        -- assert (EL : List.length m' = List.length m). { apply Permutation_length in HKS. unfold keys in HKS. rewrite !map_length in HKS. auto. } rewrite EL. auto.
        -- destruct (HA _ _ HPA) as (x' & HI' & HO). apply order_str in HO. subst. auto.
        -- intros k w' HI HIK. destruct (HB _ _ HI) as (w & HI0 & HW). destruct (HALL k w HI0 HIK) as (n1 & HX). destruct (IH _ HI0 w' HW (HL _ HI0) k n1 HX) as (n' & HR' & _). exists n'. auto.
      * intro HLI. rewrite HREQ, HRL; auto.
        -- intros m0 HM. apply HLI. apply ri_inner. auto.
        -- intros ts E. apply HLI. apply ri_quant. exact E.
  - inversion HK.
Qed.

(** ** Printing a value that stands for a tree and reading it again *)
Lemma not_empty_map n : ~ reads L "" (GMapS []) n.
Proof.
  intro H. inversion H as [? es ? ? ? ? ? HE HC|? es ? ? ? ? ? f HE HC|? k w ? HE|? k w ? HE| | |? es ? ? ? ? ? HE ? HLEN]; subst; apply entries_map in HE; try discriminate HE; subst.
  - destruct HC as (a & m & vs & rs & _ & _ & _ & _ & HP). apply Permutation_nil in HP. discriminate HP.
  - destruct HC as (a & m & vs & rs & _ & _ & _ & _ & HP). apply Permutation_nil in HP. discriminate HP.
  - destruct HLEN as [HLEN|HLEN]; discriminate HLEN.
Qed.
Lemma not_empty_list n : ~ reads L "" (GArr []) n.
Proof.
  intro H. inversion H as [? es ? ? ? ? ? HE HC|? es ? ? ? ? ? f HE HC|? k w ? HE|? k w ? HE| |? ? ? HI|? es ? ? ? ? ? HE]; subst; try (destruct HE as [HE|HE]; discriminate HE).
  destruct HI as [E|[E|[E|[]]]]; discriminate E.
Qed.
Theorem reprinted ord v n : fair ord -> numberless v -> single v -> reads L "" v n -> listed L n ->
  exists s, json_marshal L v = Some s /\ forall t, exists t', unmarshal_json_tree L ord s t = (Ok (Some n), t').
Proof.
  intros HF HN HS HR HL. destruct (print_parse L v HN) as (v' & s & EM & EP & HK). exists s. split; auto. intro t.
  destruct (relisting v v' HK HN "" n HR) as (n' & HR' & HRL). rewrite (HRL HL) in HR'. clear n' HRL.
  assert (HE : String.eqb s "{}" || String.eqb s "[]" = false).
  { destruct (String.eqb s "{}") eqn:E1.
    - apply String.eqb_eq in E1. subst s. assert (E : json_parse L "{}" = Some (GMapS [])) by reflexivity. rewrite E in EP. injection EP as <-. destruct (not_empty_map n HR').
    - destruct (String.eqb s "[]") eqn:E2; [|auto]. apply String.eqb_eq in E2. subst s.
      assert (E : json_parse L "[]" = Some (GArr [])) by reflexivity. rewrite E in EP. injection EP as <-. destruct (not_empty_list n HR'). }
  destruct (grammar_every_order L ord v' n t HF (parsed_go_value L s v' EP) (order_single v v' HK HS) HR') as (t' & EQ).
  exists t'. unfold unmarshal_json_tree. rewrite HE, EP. eapply pbind_step; [exact EQ|reflexivity].
Qed.

(** ** Stored trees *)
Lemma copyable_listed n : copyable L n -> listed L n.
Proof.
  induction n as [ns IH|ns IH|n IH|q a n IH| | |c|] using node_ind'; intros HC m HR;
    inversion HC as [? HE HF|? HE HF|? HF|? ? ? HP HS HF|? HA HB HS]; subst;
    inversion HR as [? ER|? ? ? ER|? ? ? ER|x ? HI ER|x ? HI ER|? ER]; subst.
  - rewrite Forall_forall in IH, HF. exact (IH x HI (HF x HI) m ER).
  - rewrite Forall_forall in IH, HF. exact (IH x HI (HF x HI) m ER).
  - exact (IH HF m ER).
  - rewrite ER in HS. exact HS.
  - exact (IH HF m ER).
  - rewrite ER in HS. exact HS.
Qed.
Lemma strings_storable m : sorted_keys m -> Forall (fun e => key_text (fst e)) m -> storable (strings_value m).
Proof.
  intros HS HK. apply st_map.
  - unfold keys. rewrite map_map. apply sorted_distinct. exact HS.
  - rewrite Forall_map. exact HK.
  - rewrite Forall_map. clear. induction m; constructor; auto. constructor.
Qed.
Lemma one_storable e : key_text (fst e) -> storable (snd e) -> storable (GMapS [e]).
Proof. intros HK HS. apply st_map; [constructor; [intros []|constructor]|auto|auto]. Qed.
Ltac key := vm_compute; repeat split; discriminate.
Lemma entry_key_text n : copyable L n -> key_text (fst (entry L n)).
Proof. intro H. destruct (entry_key L n H) as [<-|[<-|[<-|[<-|[<-|[<-|[]]]]]]]; key. Qed.
Lemma entry_storable n : copyable L n -> named L n -> storable (snd (entry L n)).
Proof.
  induction n as [ns IH|ns IH|n IH|q a n IH| | |c|] using node_ind'; intros HC HN;
    inversion HC as [? HE HF|? HE HF|? HF|? ? ? HP HR HF|? HA HB HR]; subst; cbn [entry snd].
  - apply st_arr. rewrite Forall_map. rewrite Forall_forall in *. intros x HI. apply one_storable; [apply entry_key_text; auto|].
    apply IH; auto. intros m HM. apply HN. eapply ri_and; eauto.
  - apply st_arr. rewrite Forall_map. rewrite Forall_forall in *. intros x HI. apply one_storable; [apply entry_key_text; auto|].
    apply IH; auto. intros m HM. apply HN. eapply ri_or; eauto.
  - apply one_storable; [apply entry_key_text; auto|]. apply IH; auto. intros m HM. apply HN. apply ri_not. auto.
  - assert (HI : storable (GMapS [entry L n])).
    { apply one_storable; [apply entry_key_text; auto|]. apply IH; auto. intros m HM. apply HN. apply ri_inner. auto. }
    destruct (r_orig (a_ret a)) as [m|] eqn:ER; cbn [returns_entry app].
    + assert (HM : storable (strings_value m)) by (apply strings_storable; [exact HR|apply HN; apply ri_quant; auto]).
      apply st_map.
      * unfold keys; simpl; repeat (constructor; [simpl; intuition discriminate|]); constructor.
      * repeat (constructor; [key|]). constructor.
      * repeat (constructor; [cbn [snd]; try assumption; try constructor|]). constructor.
    + apply st_map.
      * unfold keys; simpl; repeat (constructor; [simpl; intuition discriminate|]); constructor.
      * repeat (constructor; [key|]). constructor.
      * repeat (constructor; [cbn [snd]; try assumption; try constructor|]). constructor.
  - destruct (r_orig (c_ret c)) as [m|] eqn:ER; cbn [returns_entry app].
    + assert (HM : storable (strings_value m)) by (apply strings_storable; [exact HR|apply HN; apply ri_cond; auto]).
      apply st_map.
      * unfold keys; simpl; repeat (constructor; [simpl; intuition discriminate|]); constructor.
      * repeat (constructor; [key|]). constructor.
      * repeat (constructor; [cbn [snd]; try assumption; try constructor|]). constructor.
    + apply st_map.
      * unfold keys; simpl; repeat (constructor; [simpl; intuition discriminate|]); constructor.
      * repeat (constructor; [key|]). constructor.
      * repeat (constructor; [cbn [snd]; try assumption; try constructor|]). constructor.
Qed.

Section Bson.
Variable bson_marshal : list (string * iface) -> option string.
Variable bson_unmarshal : string -> option (list (string * iface)).
Hypothesis HB : BsonSpec bson_marshal bson_unmarshal.

Lemma empty_stored : exists data, marshal_bson_tree L bson_marshal None = Ok data /\ forall ord t, unmarshal_bson_tree L ord bson_unmarshal data t = (Ok None, t).
Proof.
  destruct (HB []) as (data & doc' & E1 & E2 & HR); [apply st_map; constructor|]. exists data.
  split; [unfold marshal_bson_tree, tree_json, rbind; assert (E : json_document L "{}" = Some []) by reflexivity; rewrite E, E1; reflexivity|].
  intros ord t. unfold unmarshal_bson_tree. rewrite E2. inversion HR as [| | | |? ? m2 HF HP]; subst. inversion HF; subst. apply Permutation_nil in HP. subst. reflexivity.
Qed.
Theorem stored n : copyable L n -> named L n -> made L n ->
  exists data, marshal_bson_tree L bson_marshal (Some n) = Ok data /\
    forall ord t, fair ord -> exists t', unmarshal_bson_tree L ord bson_unmarshal data t = (Ok (Some n), t').
Proof.
  intros HC HN HM. destruct (node_text L n HC HM) as (s & ES & HS).
  assert (HT : text L (GMapS [("conditionsTree", GMapS [entry L n])]) ("{" ++ quoted "conditionsTree" ++ ":" ++ s ++ "}"))
    by (apply one_entry; [repeat split; try discriminate; vm_compute; lia|auto]).
  assert (ET : tree_json L (Some n) = Ok ("{" ++ quoted "conditionsTree" ++ ":" ++ s ++ "}")).
  { unfold tree_json. rewrite ES. destruct n; try reflexivity. inversion HC. }
  pose proof (document_parses L _ _ (ex_intro _ "" (ex_intro _ _ (ex_intro _ "" (conj I (conj I (conj HT (eq_sym (append_nil_r _)))))))) : json_parse L ("{" ++ quoted "conditionsTree" ++ ":" ++ s ++ "}") = _) as EP.
  set (doc := [("conditionsTree", GMapS [entry L n])]) in *.
  assert (HST : storable (GMapS doc)).
  { apply one_storable; [key|]. apply one_storable; [apply entry_key_text; auto|apply entry_storable; auto]. }
  destruct (HB doc HST) as (data & doc' & E1 & E2 & HR). exists data.
  split; [unfold marshal_bson_tree; rewrite ET; cbn [rbind]; unfold json_document; rewrite EP, E1; reflexivity|].
  intros ord t Hfair. unfold unmarshal_bson_tree. rewrite E2.
  assert (HSg : single (GMapS doc)).
  { apply one_single; [apply one_single; apply entry_single; auto|]. apply not_quant. simpl. intuition discriminate. }
  assert (HV : go_value (GMapS doc)) by (apply one_go_value, one_go_value, entry_value; auto).
  assert (HRD : reads L "" (GMapS doc) n).
  { destruct (entry_back L n HC HM 0) as [t0 E0]. apply (grammar_sound L as_listed (GMapS doc) 0 n t0 as_listed_fair HV). unfold parse_conditions_tree, doc.
    change (interpret L as_listed (GMapS [("conditionsTree", GMapS [entry L n])]) "" 0) with (interpret L as_listed (GMapS [entry L n]) "conditionsTree" 0).
    rewrite one_key_map by (try (apply entry_key; auto); simpl; auto). exact E0. }
  pose proof (storable_numberless _ HST) as HNL. pose proof (reordered_numberless _ _ HR HNL) as HNL'.
  destruct (print_parse L (GMapS doc') HNL') as (v2 & s2 & EM & EP2 & HK). pose proof (reordered_order _ _ _ HR HK) as HK2.
  rewrite EM. destruct (relisting _ _ HK2 HNL "" n HRD) as (n' & HR' & HRL). rewrite (HRL (copyable_listed n HC)) in HR'. clear n' HRL.
  assert (HE : String.eqb s2 "{}" || String.eqb s2 "[]" = false).
  { destruct (String.eqb s2 "{}") eqn:Ea.
    - apply String.eqb_eq in Ea. subst s2. assert (E : json_parse L "{}" = Some (GMapS [])) by reflexivity. rewrite E in EP2. injection EP2 as <-. destruct (not_empty_map n HR').
    - destruct (String.eqb s2 "[]") eqn:Eb; [|auto]. apply String.eqb_eq in Eb. subst s2.
      assert (E : json_parse L "[]" = Some (GArr [])) by reflexivity. rewrite E in EP2. injection EP2 as <-. destruct (not_empty_list n HR'). }
  destruct (grammar_every_order L ord v2 n t Hfair (parsed_go_value L s2 v2 EP2) (order_single _ _ HK2 HSg) HR') as (t' & EQ).
  exists t'. unfold unmarshal_json_tree. rewrite HE, EP2. eapply pbind_step; [exact EQ|reflexivity].
Qed.
(** an AND without conditions is stored as {} *)
Theorem empty_and_stored : exists data, marshal_bson_tree L bson_marshal (Some (NAnd [])) = Ok data /\
  forall ord t, unmarshal_bson_tree L ord bson_unmarshal data t = (Err, t).
Proof.
  destruct (HB [("conditionsTree", GMapS [])]) as (data & doc' & E1 & E2 & HR); [apply one_storable; [key|apply st_map; constructor]|]. exists data. split.
  - unfold marshal_bson_tree, tree_json, node_json, rbind.
    assert (E : json_document L ("{" ++ quoted "conditionsTree" ++ ":" ++ "{}" ++ "}") = Some [("conditionsTree", GMapS [])]) by reflexivity.
    rewrite E, E1. reflexivity.
  - intros ord t. unfold unmarshal_bson_tree. rewrite E2. inversion HR as [| | | |? ? m2 HF HP]; subst.
    inversion HF as [|? [k x] ? ? (EK & HX) HF']; subst. inversion HF'; subst. apply Permutation_length_1_inv in HP. subst. cbn in EK, HX. subst k.
    inversion HX as [| | | |? ? m3 HF3 HP3]; subst. inversion HF3; subst. apply Permutation_nil in HP3. subst. reflexivity.
Qed.
End Bson.
End WithLib.
