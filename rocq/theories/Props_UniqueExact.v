(* C85, exactly: what two validating proof objects of one claim can differ in. *)
From Coq Require Import String List Arith NArith Bool Lia Init.Byte ZifyBool ZifyNat.
From Verif Require Import Base Element Hash Sizing FS Sched Store VecStore DiskStore MmapStore LevelCache ProofModel Tree ListFacts Spec SpecFacts SizingFacts SchedFacts StoreLaws RowFacts ChunkFacts BuildFacts BuildLoop StoreSpec FileFacts VecFacts DiskFacts MmapFacts PopFacts TreeFacts ProofSpec ProofFacts TreeProofs TreeObs Builders CompoundFacts CompoundTrees CompoundGroups CompoundBuilt Cases Props_Build Props_Proof Props_Compound Props_Tamper Props_Exact Props_Unique.
Import ListNotations.

(* The part of a proof object that matters: the base proof, and of every layer above it the
   siblings of that layer, the last node and the first position. *)
Fixpoint trim {E} (p : proof E) : proof E :=
  match pf_sub p with
  | None => p
  | Some sp => mk_proof (Some (trim sp)) (pf_top_nodes p) (pf_sub_nodes p)
      (firstn (layer_arity p - 1) (pf_lemma p) ++ firstn 1 (rev (pf_lemma p))) (firstn 1 (pf_path p))
  end.

(* every layer has at least its siblings *)
Fixpoint enough {E} (p : proof E) : Prop :=
  match pf_sub p with
  | None => True
  | Some sp => enough sp /\ layer_arity p - 1 <= List.length (pf_lemma p)
  end.

Section T.
  Context {E : Type} (EO : ElementOps E) (EL : ElementLaws EO) (A : AlgOps E) (AL : AlgLaws A) (b : nat).

  Lemma trim_root (p : proof E) : pf_root (trim p) = pf_root p.
  Proof.
    destruct p as [[sp|] top sub_ lemma path]; [|reflexivity]. cbn [trim pf_sub pf_top_nodes pf_sub_nodes pf_lemma pf_path].
    unfold pf_root. cbn [pf_lemma]. destruct (rev lemma) as [|r l] eqn:R.
    - assert (lemma = []) as -> by (rewrite <- (rev_involutive lemma), R; reflexivity). rewrite firstn_nil. reflexivity.
    - cbn [firstn]. rewrite rev_app_distr. reflexivity.
  Qed.

  Lemma layer_true sp top sub_ lemma path : let p := mk_proof (Some sp) top sub_ lemma path in let n := layer_arity p in
    0 < sub_ -> validate EO A b p = Ok true ->
    exists c rest x r, path = c :: rest /\ validate EO A b sp = Ok true /\ 0 < n /\ c < n /\ n - 1 <= List.length lemma /\
      pf_root sp = Ok x /\ pf_root p = Ok r /\ firstn 1 (rev lemma) = [r] /\
      e_eqb EO (h_node A 0 (insert_at c x (firstn (n - 1) lemma))) r = true.
  Proof.
    intros p n Hs HV.
    assert (HX : 0 < pf_top_nodes p \/ 0 < pf_sub_nodes p) by (right; exact Hs).
    pose proof (C61_layers_exact E EO A b _ AL HX) as HEX. cbn [pf_sub p] in HEX. fold p in HEX.
    assert (HVs : validate EO A b sp = Ok true).
    { destruct (validate EO A b sp) as [[]|?|?|]; try reflexivity; rewrite HV in HEX; discriminate. }
    rewrite HVs in HEX. destruct HEX as [_ HNS].
    destruct path as [|c path]. { exfalso. destruct HNS as [m Hm]; [cbn; auto|congruence]. }
    assert (Hn0 : 0 < n) by (unfold n, layer_arity; cbn [pf_top_nodes pf_sub_nodes p]; destruct (0 <? top) eqn:G; lia).
    destruct (validate_root EO A b sp HVs) as [x Hx]. destruct (validate_root EO A b p HV) as [r Hr].
    assert (HL0 : 0 < List.length lemma). { destruct lemma; [|cbn; lia]. unfold pf_root in Hr. cbn in Hr. discriminate. }
    assert (HS : c < n /\ n - 1 <= List.length lemma).
    { destruct (c <? n) eqn:G.
      - split; [lia|]. destruct (le_lt_dec (n - 1) (List.length lemma)) as [L|L]; [exact L|]. exfalso.
        destruct HNS as [m Hm]; [|congruence]. unfold solid. cbv zeta. fold n. cbn [pf_path p]. rewrite G. cbn [pf_lemma p pf_sub_nodes]. intros Q. revert Q. lia.
      - exfalso. destruct (le_lt_dec n (List.length lemma)) as [L|L].
        + destruct (last_split lemma n L Hn0) as (sibs & root & EQ).
          unfold p in HV. rewrite EQ in HV. rewrite (C61_layer E EO A b sp top sub_ sibs root c path x AL Hs) in HV; auto.
          * change (if 0 <? top then top else sub_) with n in HV. rewrite G in HV. discriminate.
          * change (if 0 <? top then top else sub_) with n. rewrite EQ, app_length in L. cbn in L. lia.
        + destruct HNS as [m Hm]; [|congruence]. unfold solid. cbv zeta. fold n. cbn [pf_path p]. rewrite G. cbn [pf_lemma p pf_sub_nodes]. intros Q. revert Q. lia. }
    destruct HS as [Hc Hl]. exists c, path, x, r.
    unfold p in HV. rewrite (layer_value EO A b AL sp top sub_ lemma c path x r) in HV; auto.
    change (layer_arity (mk_proof (Some sp) top sub_ lemma (c :: path))) with n in HV.
    repeat split; auto.
    - unfold pf_root in Hr. cbn [pf_lemma p] in Hr. destruct (rev lemma); [discriminate|]. cbn. congruence.
    - congruence.
  Qed.

  Lemma accepted_layer_eq sp top sub_ lemma path (p : proof E) : 0 < sub_ -> proof_new b top sub_ (Some sp) lemma path = Ok p ->
    p = mk_proof (Some sp) top sub_ lemma path.
  Proof.
    intros Hs HN. unfold proof_new in HN. replace (sub_ =? 0) with false in HN by lia. rewrite andb_false_r in HN. cbn [rbind] in HN. congruence.
  Qed.

  Lemma trim_true (p : proof E) : accepted b p -> validate EO A b p = Ok true ->
    shaped b false (trim p) /\ validate EO A b (trim p) = Ok true /\ enough p.
  Proof.
    induction 1 as [lemma path p HN|sp top sub_ lemma path p _ IH Hs HN]; intros HV.
    - apply proof_new_inv in HN. destruct HN as [-> HL]. cbn [trim pf_sub]. split; [constructor; exact HL|]. split; [exact HV|exact I].
    - apply (accepted_layer_eq _ _ _ _ _ _ Hs) in HN. subst p.
      destruct (layer_true _ _ _ _ _ Hs HV) as (c & rest & x & r & -> & HVs & Hn0 & Hc & Hl & Hx & Hr & Last & HE).
      destruct (IH HVs) as (IH1 & IH2 & IH3).
      set (p := mk_proof (Some sp) top sub_ lemma (c :: rest)) in *. set (n := layer_arity p) in *.
      assert (HT : trim p = mk_proof (Some (trim sp)) top sub_ (firstn (n - 1) lemma ++ [r]) [c]).
      { unfold p at 1. cbn [trim pf_sub pf_top_nodes pf_sub_nodes pf_lemma pf_path]. fold p. fold n. rewrite Last. reflexivity. }
      rewrite HT. assert (HF : List.length (firstn (n - 1) lemma) = n - 1) by (rewrite firstn_length; lia).
      split; [|split; [|split; [exact IH3|exact Hl]]].
      + constructor; [exact IH1|exact Hs|]. cbv zeta. change (if 0 <? top then top else sub_) with n. rewrite app_length, HF. cbn. lia.
      + rewrite (C61_layer E EO A b (trim sp) top sub_ (firstn (n - 1) lemma) r c [] x AL Hs); auto.
        * change (if 0 <? top then top else sub_) with n. replace (c <? n) with true by lia. cbn [andb].
          rewrite firstn_firstn, Nat.min_id, HE. reflexivity.
        * change (if 0 <? top then top else sub_) with n. lia.
        * rewrite trim_root. exact Hx.
  Qed.

  Lemma trim_back (p : proof E) : accepted b p -> enough p -> validate EO A b (trim p) = Ok true -> validate EO A b p = Ok true.
  Proof.
    induction 1 as [lemma path p HN|sp top sub_ lemma path p _ IH Hs HN]; intros HE HV.
    - apply proof_new_inv in HN. destruct HN as [-> HL]. exact HV.
    - apply (accepted_layer_eq _ _ _ _ _ _ Hs) in HN. subst p.
      set (p := mk_proof (Some sp) top sub_ lemma path) in *. destruct HE as [HE Hl]. cbn [pf_lemma] in Hl. fold p in Hl.
      pose proof (trim_root p) as TR. unfold p in HV, TR. cbn [trim pf_sub pf_top_nodes pf_sub_nodes pf_lemma pf_path] in HV, TR.
      fold p in HV, TR.
      destruct (layer_true _ _ _ _ _ Hs HV) as (c & rest & x & r & EP & HVs & Hn0 & Hc & Hl' & Hx & Hr & Last & HH).
      match type of Hr with pf_root ?q = _ => change (layer_arity q) with (layer_arity p) in * end.
      specialize (IH HE HVs). rewrite trim_root in Hx. rewrite Hr in TR.
      destruct path as [|c' path]; [discriminate|]. cbn [firstn] in EP. injection EP as -> <-.
      unfold p. rewrite (layer_value EO A b AL sp top sub_ lemma c path x r); auto. fold p.
      rewrite <- HH. do 3 f_equal.
      rewrite firstn_app, firstn_firstn, Nat.min_id, firstn_length, Nat.min_l, Nat.sub_diag by exact Hl. cbn [firstn]. rewrite app_nil_r. reflexivity.
  Qed.
End T.

(* Two validating objects the constructor accepts, with one root, one nesting and the same first
   positions: the parts that matter are equal, or at some step two node lists collide. *)
Theorem C85_exact : forall E (EO : ElementOps E) A b p q r,
  ElementLaws EO -> AlgLaws A -> arity b -> accepted b p -> accepted b q -> twin (trim p) (trim q) ->
  validate EO A b p = Ok true -> validate EO A b q = Ok true -> pf_root p = Ok r -> pf_root q = Ok r ->
  trim p = trim q \/ clashes A b (trim p) (trim q).
Proof.
  intros E EO A b p q r EL AL Hb HA HA' HT HV HV' HR HR'.
  destruct (trim_true EO A AL b p HA HV) as (S1 & S2 & _). destruct (trim_true EO A AL b q HA' HV') as (S3 & S4 & _).
  apply (C85_partial E EO A b (trim p) (trim q) r); auto; rewrite trim_root; assumption.
Qed.

(* ... and this is exactly the freedom there is: validation looks at nothing else, provided every
   layer has its siblings *)
Theorem C85_trim : forall E (EO : ElementOps E) A b p,
  AlgLaws A -> accepted b p ->
  (validate EO A b p = Ok true <-> enough p /\ validate EO A b (trim p) = Ok true) /\
  pf_root (trim p) = pf_root p /\ accepted b (trim p).
Proof.
  intros E EO A b p AL HA. split; [split|split; [apply trim_root|]].
  - intros HV. destruct (trim_true EO A AL b p HA HV) as (_ & S2 & S3). auto.
  - intros [HE HV]. apply (trim_back EO A AL b p HA HE HV).
  - induction HA as [lemma path p HN|sp top sub_ lemma path p HA IH Hs HN].
    + pose proof HN as HN'. apply proof_new_inv in HN. destruct HN as [-> HL]. cbn [trim pf_sub]. econstructor. exact HN'.
    + apply (accepted_layer_eq _ _ _ _ _ _ _ Hs) in HN. subst p.
      cbn [trim pf_sub pf_top_nodes pf_sub_nodes pf_lemma pf_path]. refine (accepted_layer b (trim sp) top sub_ _ _ _ IH Hs _).
      unfold proof_new. replace (sub_ =? 0) with false by lia. rewrite andb_false_r. reflexivity.
Qed.

(* the layer of leaf 6 of the case of C61, with and without a node that is not hashed *)
Example C85_exact_case :
  match case61 with
  | Ok p =>
      let q := mk_proof (pf_sub p) (pf_top_nodes p) (pf_sub_nodes p)
                 (firstn 2 (pf_lemma p) ++ [el 99] ++ skipn 2 (pf_lemma p)) (pf_path p ++ [5]) in
      validate BO sum_alg 2 p = Ok true /\ validate BO sum_alg 2 q = Ok true /\
      map val (pf_lemma p) <> map val (pf_lemma q) /\ trim q = trim p
  | _ => False
  end.
Proof. vm_compute. repeat split; discriminate. Qed.

Print Assumptions C85_exact.
Print Assumptions C85_trim.

(* ---------------- C61: tampering, exactly ---------------- *)
Section Tam.
  Context {E : Type} (EO : ElementOps E) (EL : ElementLaws EO) (A : AlgOps E) (AL : AlgLaws A) (b : nat).

  (* layers with their siblings and a root of their own: validation is that of the trimmed object *)
  Lemma trim_same (p : proof E) : shaped b true p -> validate EO A b (trim p) = validate EO A b p /\ shaped b false (trim p).
  Proof.
    induction 1 as [lemma path Hl|sp top sub_ lemma c path HS [IH1 IH2] Hs Hn]; [split; [reflexivity|constructor; exact Hl]|].
    cbv zeta in Hn. set (p := mk_proof (Some sp) top sub_ lemma (c :: path)).
    assert (Hn0 : 0 < layer_arity p) by (unfold layer_arity; cbn [pf_top_nodes pf_sub_nodes p]; destruct (0 <? top) eqn:G; lia).
    change (if 0 <? top then top else sub_) with (layer_arity p) in Hn.
    destruct (last_split lemma _ Hn Hn0) as (sibs & root & EQ).
    assert (HT : trim p = mk_proof (Some (trim sp)) top sub_ (firstn (layer_arity p - 1) sibs ++ [root]) [c]).
    { unfold p at 1. cbn [trim pf_sub pf_top_nodes pf_sub_nodes pf_lemma pf_path]. fold p. rewrite EQ, rev_app_distr. cbn [rev app firstn].
      rewrite EQ, app_length in Hn. cbn [List.length] in Hn.
      rewrite firstn_app. replace (layer_arity p - 1 - List.length sibs) with 0 by lia. cbn [firstn]. rewrite app_nil_r. reflexivity. }
    assert (HF : List.length (firstn (layer_arity p - 1) sibs) = layer_arity p - 1).
    { rewrite EQ, app_length in Hn. cbn [List.length] in Hn. rewrite firstn_length. lia. }
    rewrite HT. split.
    - assert (HX : forall s l q r, validate EO A b s = r -> r <> Ok true -> validate EO A b (mk_proof (Some s) top sub_ l q) = r).
      { intros s l q r Hr Hne. cbn [validate pf_top_nodes pf_sub_nodes pf_sub]. rewrite Hr.
        destruct (0 <? top) eqn:G; [|replace (0 <? sub_) with true by lia]; destruct r as [[]|?|?|]; try reflexivity; congruence. }
      assert (HD : validate EO A b sp = Ok true \/ validate EO A b sp <> Ok true).
      { destruct (validate EO A b sp) as [[]|?|?|]; [left; reflexivity|right; congruence..]. }
      destruct HD as [HD|HD].
      + destruct (validate_root EO A b sp HD) as [x Hx].
        change (validate EO A b p) with (validate EO A b (mk_proof (Some sp) top sub_ lemma (c :: path))). rewrite EQ.
        rewrite (C61_layer E EO A b sp top sub_ sibs root c path x AL Hs); auto.
        2:{ rewrite EQ, app_length in Hn. cbn [List.length] in Hn. change (if 0 <? top then top else sub_) with (layer_arity p). lia. }
        rewrite (C61_layer E EO A b (trim sp) top sub_ (firstn (layer_arity p - 1) sibs) root c [] x AL Hs); auto.
        * change (if 0 <? top then top else sub_) with (layer_arity p). rewrite firstn_firstn, Nat.min_id. reflexivity.
        * change (if 0 <? top then top else sub_) with (layer_arity p). lia.
        * rewrite trim_root. exact Hx.
        * congruence.
      + change (validate EO A b p) with (validate EO A b (mk_proof (Some sp) top sub_ lemma (c :: path))).
        rewrite (HX sp lemma (c :: path) _ eq_refl HD). apply HX; [exact IH1|exact HD].
    - constructor; [exact IH2|exact Hs|]. cbv zeta. change (if 0 <? top then top else sub_) with (layer_arity p).
      rewrite app_length, HF. cbn [List.length]. lia.
  Qed.

  Lemma shaped_tampered (p p' : proof E) : tampered p p' -> shaped b true p -> shaped b true p'.
  Proof.
    induction 1 as [sp top sub_ lemma path i old y Hi Hy|sp sp' top sub_ lemma path HT IH]; intros HS.
    - pose proof (nth_error_lt _ _ _ Hi) as Li.
      assert (LL : List.length (firstn i lemma ++ y :: skipn (S i) lemma) = List.length lemma).
      { rewrite app_length, firstn_length. cbn [List.length]. rewrite skipn_length. lia. }
      inversion HS; subst; constructor; auto; cbv zeta; rewrite LL; assumption.
    - inversion HS; subst. constructor; auto.
  Qed.

  Lemma last1 (l : list E) r : firstn 1 (rev (l ++ [r])) = [r].
  Proof. rewrite rev_app_distr. reflexivity. Qed.
  Lemma firstn_pre k (l m : list E) : k <= List.length l -> firstn k (l ++ m) = firstn k l.
  Proof. intros H. rewrite firstn_app. replace (k - List.length l) with 0 by lia. cbn [firstn]. apply app_nil_r. Qed.

  Lemma trim_tampered (p p' : proof E) : tampered p p' -> shaped b true p ->
    trim p' = trim p \/ tampered (trim p) (trim p').
  Proof.
    induction 1 as [sp top sub_ lemma path i old y Hi Hy|sp sp' top sub_ lemma path HT IH]; intros HS.
    - inversion HS as [? ? Hl|sp0 ? ? ? c path0 HS0 Hs Hn]; subst.
      + right. cbn [trim pf_sub]. apply (tampered_here None 0 0 lemma path i old y Hi Hy).
      + cbv zeta in Hn. set (n := if 0 <? top then top else sub_) in *.
        assert (Hn0 : 0 < n) by (unfold n; destruct (0 <? top) eqn:G; lia).
        cbn [trim pf_sub pf_top_nodes pf_sub_nodes pf_lemma pf_path].
        repeat match goal with |- context [layer_arity ?q] => change (layer_arity q) with n end.
        destruct (last_split lemma n Hn Hn0) as (sibs & root & ->).
        rewrite app_length in Hn. cbn [List.length] in Hn. pose proof (nth_error_lt _ _ _ Hi) as Li. rewrite app_length in Li. cbn [List.length] in Li.
        rewrite (last1 sibs root), (firstn_pre (n - 1) sibs [root]) by lia.
        destruct (Nat.eq_dec i (List.length sibs)) as [->|Ni].
        * (* the root *)
          right. rewrite nth_error_app2, Nat.sub_diag in Hi by lia. cbn in Hi. injection Hi as ->.
          assert (EQ : firstn (List.length sibs) (sibs ++ [old]) ++ y :: skipn (S (List.length sibs)) (sibs ++ [old]) = sibs ++ [y]).
          { rewrite firstn_app, firstn_all, Nat.sub_diag. cbn [firstn]. rewrite app_nil_r. f_equal. f_equal.
            apply skipn_all2. rewrite app_length. cbn. lia. }
          rewrite EQ, (last1 sibs y), (firstn_pre (n - 1) sibs [y]) by lia.
          pose proof (tampered_here (Some (trim sp0)) top sub_ (firstn (n - 1) sibs ++ [old]) [c] (List.length (firstn (n - 1) sibs)) old y) as TH.
          rewrite nth_error_app2, Nat.sub_diag in TH by lia. specialize (TH eq_refl Hy).
          rewrite (firstn_app (List.length (firstn (n - 1) sibs))), firstn_all, Nat.sub_diag in TH. cbn [firstn] in TH. rewrite app_nil_r in TH.
          rewrite skipn_all2 in TH by (rewrite app_length; cbn; lia). exact TH.
        * assert (Lj : i < List.length sibs) by lia. rewrite nth_error_app1 in Hi by lia.
          assert (EQ : firstn i (sibs ++ [root]) ++ y :: skipn (S i) (sibs ++ [root]) = (firstn i sibs ++ y :: skipn (S i) sibs) ++ [root]).
          { rewrite firstn_app, skipn_app. replace (i - List.length sibs) with 0 by lia. replace (S i - List.length sibs) with 0 by lia.
            cbn [firstn skipn]. rewrite app_nil_r, <- app_assoc. reflexivity. }
          rewrite EQ, last1.
          set (sibs' := firstn i sibs ++ y :: skipn (S i) sibs).
          assert (LS : List.length sibs' = List.length sibs).
          { unfold sibs'. rewrite app_length, firstn_length. cbn [List.length]. rewrite skipn_length. lia. }
          rewrite (firstn_pre (n - 1) sibs' [root]) by lia.
          destruct (le_lt_dec (n - 1) i) as [L|L].
          -- left. f_equal. f_equal. unfold sibs'. rewrite firstn_app, firstn_firstn, Nat.min_l by exact L.
             rewrite firstn_length, Nat.min_l by lia. replace (n - 1 - i) with 0 by lia. cbn [firstn]. rewrite app_nil_r. reflexivity.
          -- right.
             pose proof (tampered_here (Some (trim sp0)) top sub_ (firstn (n - 1) sibs ++ [root]) [c] i old y) as TH.
             rewrite nth_error_app1, nth_error_firstn in TH by (rewrite firstn_length; lia). replace (i <? n - 1) with true in TH by lia.
             specialize (TH Hi Hy).
             replace (firstn i (firstn (n - 1) sibs ++ [root]) ++ y :: skipn (S i) (firstn (n - 1) sibs ++ [root]))
               with (firstn (n - 1) sibs' ++ [root]) in TH; [exact TH|].
             rewrite firstn_app, skipn_app, firstn_firstn, Nat.min_l, firstn_length, Nat.min_l by lia.
             replace (i - (n - 1)) with 0 by lia. replace (S i - (n - 1)) with 0 by lia. cbn [firstn skipn]. rewrite app_nil_r.
             unfold sibs'. rewrite firstn_app, firstn_firstn, Nat.min_r, firstn_length, Nat.min_l by lia.
             replace (n - 1 - i) with (S (n - 1 - S i)) by lia. cbn [firstn]. rewrite <- app_assoc. cbn [app]. do 3 f_equal.
             change (firstn (n - 1 - S i) (skipn (S i) sibs) = skipn (S i) (firstn (n - 1) sibs)). rewrite skipn_firstn_comm. reflexivity.
    - inversion HS as [|? ? ? ? c path0 HS0 Hs Hn]; subst. destruct (IH HS0) as [H|H].
      + left. cbn [trim pf_sub pf_top_nodes pf_sub_nodes pf_lemma pf_path]. rewrite H. reflexivity.
      + right. cbn [trim pf_sub pf_top_nodes pf_sub_nodes pf_lemma pf_path]. apply tampered_below. exact H.
  Qed.

  Lemma tampered_ne (p p' : proof E) : tampered p p' -> p <> p'.
  Proof.
    induction 1 as [sp top sub_ lemma path i old y Hi Hy|sp sp' top sub_ lemma path HT IH]; intros Q.
    - injection Q as Q. apply Hy. pose proof (nth_error_lt _ _ _ Hi) as Li.
      pose proof (f_equal (fun l => nth_error l i) Q) as HN. cbn beta in HN. rewrite Hi, nth_error_app2 in HN by (rewrite firstn_length; lia).
      rewrite firstn_length, Nat.min_l, Nat.sub_diag in HN by lia. cbn in HN. congruence.
    - injection Q as Q. apply IH. exact Q.
  Qed.
End Tam.

(* One node, somewhere, replaced by another, in any object whose layers have their siblings and a
   root: it is a node validation does not look at, or validation fails, or two lists collide. *)
Theorem C61_tamper_exact : forall E (EO : ElementOps E) A b p p',
  ElementLaws EO -> AlgLaws A -> arity b -> shaped b true p ->
  validate EO A b p = Ok true -> tampered p p' ->
  (trim p' = trim p /\ validate EO A b p' = Ok true) \/
  (trim p' <> trim p /\ (validate EO A b p' = Ok false \/ collides A b (trim p) (trim p'))).
Proof.
  intros E EO A b p p' EL AL Hb HS HV HT.
  destruct (trim_same EO A AL b p HS) as [V S1].
  destruct (trim_same EO A AL b p' (shaped_tampered b p p' HT HS)) as [V' S2].
  destruct (trim_tampered b p p' HT HS) as [H|H].
  - left. split; [exact H|]. rewrite <- V', H, V. exact HV.
  - right. split.
    + intros Q. apply (tampered_ne _ _ H). symmetry. exact Q.
    + rewrite <- V'. apply (C61_tamper_partial E EO A b (trim p) (trim p')); auto. rewrite V. exact HV.
Qed.

(* the object of C85_exact_case with its spare node, its root or a sibling replaced *)
Example C61_exact_case :
  match case61 with
  | Ok p =>
      let q l := mk_proof (pf_sub p) (pf_top_nodes p) (pf_sub_nodes p) l (pf_path p) in
      let l := firstn 2 (pf_lemma p) ++ [el 99] ++ skipn 2 (pf_lemma p) in
      List.length l = 4 /\ validate BO sum_alg 2 (q l) = Ok true /\
      map (fun i => validate BO sum_alg 2 (q (firstn i l ++ el 1 :: skipn (S i) l))) (seq 0 4) = [Ok false; Ok false; Ok true; Ok false]
  | _ => False
  end.
Proof. vm_compute. auto. Qed.

Print Assumptions C61_tamper_exact.
