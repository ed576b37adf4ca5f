(** Proofs about the objects read from JSON texts. *)
From Coq Require Import List String Ascii Bool Arith ZArith Lia.
From Verif Require Import Base GoStr GoFloat Types Json Spec_Json Json_proofs Load_proofs JsonDoc_keys Spec_Object.
Import ListNotations.
Open Scope string_scope.

Lemma last_snoc k v kvs k' v' : last_under k v (kvs ++ [(k', v')]) <-> (k = k' /\ v = v') \/ (k <> k' /\ last_under k v kvs).
Proof.
  split.
  - intros (a & b & E & HB). destruct b as [|e b] using rev_ind.
    + apply app_inj_tail in E. destruct E as [_ E]. injection E as <- <-. auto.
    + clear IHb. change (a ++ (k, v) :: b ++ [e])%list with (a ++ ((k, v) :: b) ++ [e])%list in E. rewrite app_assoc in E.
      apply app_inj_tail in E. destruct E as [-> <-]. right. split.
      * intros <-. apply (HB v'). apply in_or_app. right. left. reflexivity.
      * exists a, b. split; [reflexivity|]. intros w HI. apply (HB w). apply in_or_app. auto.
  - intros [[<- <-]|(HN & a & b & -> & HB)].
    + exists kvs, []. auto.
    + exists a, (b ++ [(k', v')])%list. split; [rewrite <- app_assoc; reflexivity|].
      intros w HI. apply in_app_or in HI. destruct HI as [HI|[HI|[]]]; [exact (HB w HI)|]. injection HI as <- <-. apply HN. reflexivity.
Qed.
Lemma collected kvs : let m := fold_left (fun acc kv => upsert (fst kv) (snd kv) acc) kvs ([] : list (string * iface)) in
  NoDup (keys m) /\ forall k v, In (k, v) m <-> last_under k v kvs.
Proof.
  induction kvs as [|[k' v'] kvs IH] using rev_ind.
  - split; [constructor|]. intros k v. split; [intros []|]. intros (a & b & E & _). destruct a; discriminate E.
  - rewrite fold_left_app. cbn [fold_left fst snd]. cbv zeta in *. destruct IH as [HN IH]. split; [apply keys_upsert; exact HN|].
    intros k v. rewrite upsert_in by exact HN. rewrite last_snoc, IH. tauto.
Qed.

Theorem object_entries L s m : json_parse L s = Some (GMapS m) ->
  exists w1 w2, spaces w1 /\ spaces w2 /\
    ((exists w, spaces w /\ s = w1 ++ ("{" ++ w ++ "}") ++ w2 /\ m = []) \/
     (exists kvs t, members L kvs t /\ s = w1 ++ ("{" ++ t ++ "}") ++ w2 /\ NoDup (map fst m) /\ forall k v, In (k, v) m <-> last_under k v kvs)).
Proof.
  intro H. apply parse_iff in H. destruct H as (w1 & t & w2 & H1 & H2 & HT & ->). exists w1, w2. split; [exact H1|]. split; [exact H2|].
  inversion HT as [| | | | | | |w HW|kvs t' HM E]; subst.
  - left. exists w. auto.
  - right. exists kvs, t'. split; [exact HM|]. split; [reflexivity|]. exact (collected kvs).
Qed.
