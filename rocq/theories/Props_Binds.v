(* C91: a root binds the shape and the data of trees of any two shapes. *)
From Coq Require Import String List Arith NArith Bool Lia Init.Byte ZifyBool ZifyNat.
From Verif Require Import Base Element Hash Sizing FS Sched Store VecStore DiskStore MmapStore LevelCache ProofModel Tree ListFacts Spec SpecFacts SizingFacts SchedFacts StoreLaws RowFacts ChunkFacts BuildFacts BuildLoop StoreSpec FileFacts VecFacts DiskFacts MmapFacts PopFacts TreeFacts ProofSpec ProofFacts TreeProofs TreeObs Builders CompoundFacts CompoundTrees CompoundBuilt HashFacts HashTree HashTreeFacts Cases Props_Build Props_Hash Props_Compound Props_AnyProof.
Import ListNotations.

Lemma app_split_len {X} (a a' b b' : list X) : a ++ b = a' ++ b' -> List.length a = List.length a' -> a = a' /\ b = b'.
Proof.
  revert a'. induction a as [|x a IH]; intros [|y a'] HE HL; cbn in HE, HL; try discriminate; [auto|].
  injection HE as -> HE. destruct (IH a' HE ltac:(lia)) as [-> ->]. auto.
Qed.

(* ---- hash trees with equal values ---- *)
Section Bytes.
  Context {E : Type} (EO : ElementOps E) (EL : ElementLaws EO) (H : list byte -> E).

  Lemma clash_in cs cs' (u u' : htree E) : In u cs -> In u' cs' ->
    clash H (tree_bytes EO H u) (tree_bytes EO H u') -> clash H (tree_bytes EO H (HN cs)) (tree_bytes EO H (HN cs')).
  Proof.
    intros Hu Hu' HC. eapply clash_incl; [| |exact HC]; intros s Hs; cbn [tree_bytes]; right; apply in_flat_map; eauto.
  Qed.

  Lemma value_inj : forall T T', value EO H T = value EO H T' -> T = T' \/ clash H (tree_bytes EO H T) (tree_bytes EO H T').
  Proof.
    induction T as [x|cs IH] using htree_ind'; intros T' HV.
    - destruct (open_leaf EO EL H T' x (tree_bytes EO H (HL x)) HV ltac:(left; reflexivity)) as [->|HC]; auto.
    - destruct (open_node EO EL H T' (map (value EO H) cs) (tree_bytes EO H (HN cs)) HV ltac:(left; reflexivity)) as [(cs' & -> & HM)|HC]; auto.
      assert (G : cs = cs' \/ exists u u', In u cs /\ In u' cs' /\ clash H (tree_bytes EO H u) (tree_bytes EO H u')).
      { clear HV. revert cs' HM. induction IH as [|u cs Hu IH IHl]; intros [|u' cs'] HM; try discriminate; [left; reflexivity|].
        cbn [map] in HM. injection HM as H1 H2. destruct (Hu u' H1) as [->|HC].
        - destruct (IHl cs' H2) as [->|(v & v' & V1 & V2 & V3)]; [left; reflexivity|right].
          exists v, v'. split; [right; exact V1|]. split; [right; exact V2|exact V3].
        - right. exists u, u'. split; [left; reflexivity|]. split; [left; reflexivity|exact HC]. }
      destruct G as [->|(u & u' & U1 & U2 & U3)]; [left; reflexivity|right]. eapply clash_in; eauto.
  Qed.

  Lemma shaped_fun : forall (T : htree E) ars ars', Forall (fun a => 0 < a) ars -> Forall (fun a => 0 < a) ars' ->
    shaped ars T -> shaped ars' T -> ars = ars'.
  Proof.
    induction T as [x|cs IH] using htree_ind'; intros [|a ars] [|a' ars'] P P' S S'; cbn [shaped] in *; try contradiction; [reflexivity|].
    destruct S as [S1 S2], S' as [S3 S4]. inversion P; subst. inversion P'; subst. f_equal.
    destruct cs as [|u cs]; [cbn in *; lia|]. inversion IH; subst. inversion S2; subst. inversion S4; subst. auto.
  Qed.
End Bytes.

Lemma repeat_pos b d : arity b -> Forall (fun a => 0 < a) (repeat b d).
Proof. intros Hb. pose proof (arity_ge b Hb). apply Forall_forall. intros x Hx. apply repeat_spec in Hx. lia. Qed.

Lemma lib_pos {E} (EO : ElementOps E) SO A en b ars es t : arity b -> lib_tree EO SO A en b ars es t -> Forall (fun a => 0 < a) ars.
Proof.
  intros Hb HT. pose proof (repeat_pos b) as HR.
  assert (TOP : forall d gs sub_ top subs t0, rmap (from_trees SO A sub_) gs = Ok subs -> from_sub_trees SO A top subs = Ok t0 ->
    Forall (fun a => 0 < a) (top :: sub_ :: repeat b d)).
  { intros d gs sub_ top subs t0 H1 H2. pose proof (from_sub_trees_inv SO A _ _ _ H2) as (P & L & _).
    apply rmap_ok_Forall2 in H1. destruct H1 as [|g u gs us G1 G2]; [cbn in L; lia|].
    pose proof (from_trees_inv SO A _ _ _ G1) as (Q & _). auto. }
  destruct HT as [es d f t f' HB HL|ess d f ts f' sub_ t HB HF HU|ess d f gs f' sub_ top subs t HB HF H1 HU|ess d f ts f' sub_ top t HB HF HU].
  - auto.
  - pose proof (from_trees_inv SO A _ _ _ HU) as (P & _). auto.
  - eapply TOP; eauto.
  - destruct (flat_groups A SO sub_ top ts t HU) as (gs & subs & G1 & G2 & G3 & G4 & G5). eapply TOP; eauto.
Qed.

(* ---------------- C91 ---------------- *)
(* Default leaf / node / multi_node over a streaming hasher.  Two trees, each base, two-layer
   or three-layer, over any stores, of any arities, sizes and nestings: with equal roots they
   have the same arities from the root down and the same elements in the same order, or two
   different byte strings with the same hash were hashed when they were built. *)
Theorem C91_elements : forall E (EO : ElementOps E) St dflt write hash SO np en b ars es t SO' np' en' b' ars' es' t',
  let A := default_alg EO St dflt write hash in
  let H := hash_bytes dflt write hash in
  streaming write -> setting EO A SO np en b -> setting EO A SO' np' en' b' ->
  lib_tree EO SO A en b ars es t -> lib_tree EO SO' A en' b' ars' es' t' ->
  mt_root t = mt_root t' ->
  exists T T', shaped ars T /\ fringe T = es /\ value EO H T = mt_root t /\
    shaped ars' T' /\ fringe T' = es' /\ value EO H T' = mt_root t' /\
    (ars = ars' /\ es = es' \/ clash H (tree_bytes EO H T) (tree_bytes EO H T')).
Proof.
  intros E EO St dflt write hash SO np en b ars es t SO' np' en' b' ars' es' t' A H HW HS HS' HT HT' HR.
  destruct (lib_htree EO St dflt write hash SO np en b ars es t HW HS HT) as (T & T1 & T2 & T3).
  destruct (lib_htree EO St dflt write hash SO' np' en' b' ars' es' t' HW HS' HT') as (T' & T1' & T2' & T3').
  exists T, T'. do 6 (split; [assumption|]). destruct HS as (EL & _ & _ & Hb & _), HS' as (_ & _ & _ & Hb' & _).
  destruct (value_inj EO EL H T T') as [Q|HC]; [|left|right; exact HC].
  - transitivity (mt_root t); [exact T3|]. rewrite HR. symmetry. exact T3'.
  - subst T'. split; [|congruence].
    eapply shaped_fun; [eapply lib_pos; [exact Hb|exact HT]|eapply lib_pos; [exact Hb'|exact HT']|exact T1|exact T1'].
Qed.

(* and the root is a function of the arities and the elements *)
Theorem C91_determined : forall E (EO : ElementOps E) St dflt write hash SO np en b ars es t SO' np' en' b' t',
  let A := default_alg EO St dflt write hash in
  streaming write -> setting EO A SO np en b -> setting EO A SO' np' en' b' ->
  lib_tree EO SO A en b ars es t -> lib_tree EO SO' A en' b' ars es t' ->
  mt_root t = mt_root t'.
Proof.
  intros E EO St dflt write hash SO np en b ars es t SO' np' en' b' t' A HW HS HS' HT HT'.
  destruct (lib_htree EO St dflt write hash SO np en b ars es t HW HS HT) as (T & T1 & T2 & T3).
  destruct (lib_htree EO St dflt write hash SO' np' en' b' ars es t' HW HS' HT') as (T' & T1' & T2' & T3').
  assert (G : forall (T T' : htree E) ars, shaped ars T -> shaped ars T' -> fringe T = fringe T' -> T = T').
  { clear. induction T as [x|cs IH] using htree_ind'; intros [y|cs'] [|a ars] S S' HF; cbn [shaped] in *; try contradiction.
    - cbn in HF. congruence.
    - destruct S as [S1 S2], S' as [S3 S4]. f_equal. cbn [fringe] in HF. rewrite <- S1 in S3. clear a S1.
      revert cs' S3 S4 HF. induction IH as [|u cs Hu IH IHl]; intros [|u' cs'] L F HF; cbn [List.length] in L; try discriminate; [reflexivity|].
      inversion S2; subst. inversion F; subst. cbn [flat_map] in HF.
      assert (Q : List.length (fringe u) = List.length (fringe u')) by (rewrite !(fringe_length _ ars); auto).
      apply app_split_len in HF; [|exact Q]. destruct HF as [F1 F2]. f_equal; [eapply Hu; eauto|apply IHl; auto]. }
  rewrite <- T3, <- T3'. f_equal. apply (G T T' ars); congruence.
Qed.

(* Trees over data of one type of the readable types of C47: equal roots, equal data. *)
Theorem C91_data : forall E (EO : ElementOps E) St dflt write hash SO np en b ars xs t SO' np' en' b' ars' ys t' ty,
  let A := default_alg EO St dflt write hash in
  let H := hash_bytes dflt write hash in
  streaming write -> write dflt [] = dflt -> setting EO A SO np en b -> setting EO A SO' np' en' b' ->
  lib_tree EO SO A en b ars (map (hash_of A) xs) t -> lib_tree EO SO' A en' b' ars' (map (hash_of A) ys) t' ->
  readable ty = true -> Forall (has_type ty) xs -> Forall (has_type ty) ys ->
  mt_root t = mt_root t' ->
  exists T T', shaped ars T /\ fringe T = map (hash_of A) xs /\ value EO H T = mt_root t /\
    shaped ars' T' /\ fringe T' = map (hash_of A) ys /\ value EO H T' = mt_root t' /\
    (ars = ars' /\ xs = ys \/ clash H (map stream xs ++ tree_bytes EO H T) (map stream ys ++ tree_bytes EO H T')).
Proof.
  intros E EO St dflt write hash SO np en b ars xs t SO' np' en' b' ars' ys t' ty A H HW H0 HS HS' HT HT' HRd HX HY HR.
  destruct (C91_elements E EO St dflt write hash SO np en b ars _ t SO' np' en' b' ars' _ t' HW HS HS' HT HT' HR)
    as (T & T' & T1 & T2 & T3 & T4 & T5 & T6 & HC). exists T, T'. do 6 (split; [assumption|]).
  assert (HH : forall x, hash_of A x = H (stream x)).
  { intros x. unfold hash_of, hash_into, H, hash_bytes, stream. cbn [a_hash a_write a_default A default_alg].
    assert (G : forall l q, fold_left write l (write dflt q) = write dflt (q ++ concat l)).
    { induction l as [|y l IH]; intros q; cbn [fold_left concat]; [rewrite app_nil_r; reflexivity|]. rewrite HW, IH, app_assoc. reflexivity. }
    rewrite <- (app_nil_l (concat (feed x))), <- (G (feed x) []), H0. reflexivity. }
  destruct HC as [[HA HE]|HC]; [|right; eapply clash_incl; [| |exact HC]; apply incl_appr, incl_refl].
  assert (G : xs = ys \/ clash H (map stream xs) (map stream ys)).
  { clear - HE HH HX HY HRd. revert ys HE HY. induction HX as [|x xs Hx HX IH]; intros [|y ys] HE HY; try discriminate; [left; reflexivity|].
    cbn [map] in HE. injection HE as E1 E2. inversion HY as [|? ? Hy HY']; subst.
    destruct (list_eq_dec Byte.byte_eq_dec (stream x) (stream y)) as [Q|Q].
    - apply (stream_inj ty HRd x y Hx Hy) in Q. subst y. destruct (IH ys E2 HY') as [->|HC]; [left; reflexivity|right].
      eapply clash_incl; [| |exact HC]; intros s Hs; right; exact Hs.
    - right. exists (stream x), (stream y). split; [left; reflexivity|]. split; [left; reflexivity|]. split; [exact Q|]. rewrite <- !HH. exact E1. }
  destruct G as [G|HC]; [left; auto|right]. eapply clash_incl; [| |exact HC]; apply incl_appl, incl_refl.
Qed.

(* ---- any algorithm: the heights matter ---- *)
Section Heights.
  Context {E : Type} (hn : nat -> list E -> E).

  (* value of a tree whose leaves are given as they are stored; hs: the height passed for the
     nodes of each layer, root first *)
  Fixpoint hvalue (hs : list nat) (t : htree E) : E :=
    match t with
    | HL x => x
    | HN cs => hn (hd 0 hs) (map (hvalue (tl hs)) cs)
    end.
  (* every (height, nodes) hashed for it *)
  Fixpoint calls (hs : list nat) (t : htree E) : list (nat * list E) :=
    match t with
    | HL _ => []
    | HN cs => (hd 0 hs, map (hvalue (tl hs)) cs) :: flat_map (calls (tl hs)) cs
    end.
  Definition node_clash (xs ys : list (nat * list E)) : Prop :=
    exists m l l', In (m, l) xs /\ In (m, l') ys /\ List.length l = List.length l' /\ l <> l' /\ hn m l = hn m l'.

  Lemma hvalue_inj (dec : forall l l' : list E, l = l' \/ l <> l') : forall T T' ars hs, shaped ars T -> shaped ars T' ->
    hvalue hs T = hvalue hs T' -> T = T' \/ node_clash (calls hs T) (calls hs T').
  Proof.
    induction T as [x|cs IH] using htree_ind'; intros [y|cs'] [|a ars] hs S S' HV; cbn [shaped] in *; try contradiction.
    - cbn in HV. left. congruence.
    - destruct S as [S1 S2], S' as [S3 S4]. cbn [hvalue] in HV.
      destruct (dec (map (hvalue (tl hs)) cs) (map (hvalue (tl hs)) cs')) as [HM|HM].
      + assert (G : cs = cs' \/ exists u u', In u cs /\ In u' cs' /\ node_clash (calls (tl hs) u) (calls (tl hs) u')).
        { clear HV S1 S3. revert cs' S4 HM. induction IH as [|u cs Hu IH IHl]; intros [|u' cs'] F HM; try discriminate; [left; reflexivity|].
          cbn [map] in HM. injection HM as H1 H2. inversion S2; subst. inversion F; subst.
          destruct (Hu u' ars (tl hs)) as [->|HC]; auto.
          - destruct (IHl ltac:(assumption) cs' ltac:(assumption) H2) as [->|(v & v' & V1 & V2 & V3)]; [left; reflexivity|right].
            exists v, v'. split; [right; exact V1|]. split; [right; exact V2|exact V3].
          - right. exists u, u'. split; [left; reflexivity|]. split; [left; reflexivity|exact HC]. }
        destruct G as [->|(u & u' & U1 & U2 & (m & l & l' & L1 & L2 & L3))]; [left; reflexivity|right].
        exists m, l, l'. split; [cbn [calls]; right; apply in_flat_map; eauto|]. split; [cbn [calls]; right; apply in_flat_map; eauto|exact L3].
      + right. exists (hd 0 hs), (map (hvalue (tl hs)) cs), (map (hvalue (tl hs)) cs').
        split; [left; reflexivity|]. split; [left; reflexivity|]. split; [rewrite !map_length; congruence|]. split; [exact HM|exact HV].
  Qed.

  (* heights of a base tree of d levels, root first *)
  Fixpoint down (d : nat) : list nat := match d with 0 => [] | S k => k :: down k end.

  Lemma MRoot_hvalue b : forall d leaves r, MRoot hn b d leaves r ->
    exists T, shaped (repeat b d) T /\ fringe T = leaves /\ hvalue (down d) T = r.
  Proof.
    induction d as [|d IH]; intros leaves r HM.
    - inversion HM; subst. exists (HL r). cbn. auto.
    - assert (G : forall parts roots, Forall2 (MRoot hn b d) parts roots ->
        exists cs, Forall (shaped (repeat b d)) cs /\ List.length cs = List.length parts /\ flat_map fringe cs = concat parts /\ map (hvalue (down d)) cs = roots).
      { intros parts roots HF. induction HF as [|p q parts roots Hp HF IHF]; [exists []; cbn; auto|].
        destruct (IH p q Hp) as (T & T1 & T2 & T3). destruct IHF as (cs & C1 & C2 & C3 & C4).
        exists (T :: cs). cbn [List.length flat_map map concat]. rewrite T2, T3, C2, C3, C4. auto. }
      inversion HM as [|? parts roots HLn HF Q1 Q2 Q3]. destruct (G parts roots HF) as (cs & C1 & C2 & C3 & C4).
      exists (HN cs). cbn [repeat shaped fringe hvalue down hd tl]. rewrite C4. split; [split; [congruence|exact C1]|]. split; [congruence|reflexivity].
  Qed.
End Heights.

(* the library's trees over stored leaves: arities and heights from the root down *)
Inductive leaf_tree {E} (EO : ElementOps E) (SO : StoreOps E) (A : AlgOps E) (en : env) (b : nat)
  : list nat -> list nat -> list E -> mtree (st_t SO) E -> Prop :=
| FT_base leaves d f t f' :
    builder EO SO A en b leaves f (Ok t, f') -> List.length leaves = b ^ d ->
    leaf_tree EO SO A en b (repeat b d) (down d) leaves t
| FT_sub lss d f ts f' sub_ t :
    built_all EO SO A en b lss f ts f' -> Forall (fun l => List.length l = b ^ d) lss ->
    from_trees SO A sub_ ts = Ok t ->
    leaf_tree EO SO A en b (sub_ :: repeat b d) (1 :: down d) (concat lss) t
| FT_top lss d f gs f' sub_ top subs t :
    built_all EO SO A en b lss f (concat gs) f' -> Forall (fun l => List.length l = b ^ d) lss ->
    rmap (from_trees SO A sub_) gs = Ok subs -> from_sub_trees SO A top subs = Ok t ->
    leaf_tree EO SO A en b (top :: sub_ :: repeat b d) (1 :: 1 :: down d) (concat lss) t
| FT_flat lss d f ts f' sub_ top t :
    built_all EO SO A en b lss f ts f' -> Forall (fun l => List.length l = b ^ d) lss ->
    from_sub_trees_as_trees SO A sub_ top ts = Ok t ->
    leaf_tree EO SO A en b (top :: sub_ :: repeat b d) (1 :: 1 :: down d) (concat lss) t.

Section Leaf.
  Context {E : Type} (EO : ElementOps E) (A : AlgOps E).
  Notation V := (hvalue (h_node A)).

  Lemma base_leaf_tree SO np en b d leaves f t f' : setting EO A SO np en b ->
    builder EO SO A en b leaves f (Ok t, f') -> List.length leaves = b ^ d ->
    exists T, shaped (repeat b d) T /\ fringe T = leaves /\ V (down d) T = mt_root t.
  Proof.
    intros (EL & AL & HS & Hb & Hch) HB Hl. pose proof (arity_ge b Hb).
    destruct (builder_tree EO EL A AL en b SO np HS _ f t f' Hb Hch HB) as (d' & els & Hn & HF).
    rewrite Hl in Hn. apply pow_inj in Hn; [|lia]. subst d'.
    apply MRoot_hvalue. eapply Layout_root; [|apply (ft_layout _ _ _ _ _ _ _ _ HF)|apply (ft_root _ _ _ _ _ _ _ _ HF)]. lia.
  Qed.

  Lemma built_leaf_trees SO np en b d : setting EO A SO np en b ->
    forall lss f ts f', built_all EO SO A en b lss f ts f' -> Forall (fun l => List.length l = b ^ d) lss ->
    exists Ts, Forall2 (fun t T => shaped (repeat b d) T /\ V (down d) T = mt_root t) ts Ts /\ flat_map fringe Ts = concat lss.
  Proof.
    intros HS lss. induction lss as [|l lss IH]; intros f ts f' HB HF; inversion HB as [|? ? ? t f1 ts1 ? B1 B2]; subst.
    - exists []. split; [constructor|reflexivity].
    - inversion HF as [|? ? F1 F2]; subst. destruct (IH _ _ _ B2 F2) as (Ts & T1 & T2).
      destruct (base_leaf_tree SO np en b d l f t f1 HS B1 F1) as (T & Q1 & Q2 & Q3).
      exists (T :: Ts). split; [constructor; auto|]. cbn [flat_map concat]. rewrite Q2, T2. reflexivity.
  Qed.

  Lemma layer_leaf_tree (P : htree E -> Prop) hs {S'} (ts : list (mtree S' E)) Ts (t : mtree S' E) :
    Forall2 (fun t T => P T /\ V hs T = mt_root t) ts Ts -> mt_root t = h_node A 1 (map mt_root ts) ->
    V (1 :: hs) (HN Ts) = mt_root t /\ Forall P Ts /\ List.length Ts = List.length ts.
  Proof.
    intros HF Hr. rewrite Hr. cbn [hvalue hd tl].
    assert (Q : map (V hs) Ts = map mt_root ts /\ Forall P Ts /\ List.length Ts = List.length ts).
    { clear Hr. induction HF as [|t0 T ts Ts [Q1 Q2] HF IH]; [cbn; auto|]. destruct IH as (I1 & I2 & I3). cbn [map List.length]. rewrite I1, Q2, I3. auto. }
    destruct Q as (-> & Q2 & Q3). auto.
  Qed.

  Lemma groups_leaf_trees SO b d sub_ : forall gs subs Ts,
    Forall2 (fun t T => shaped (repeat b d) T /\ V (down d) T = mt_root t) (concat gs) Ts ->
    Forall2 (fun g t => from_trees SO A sub_ g = Ok t) gs subs ->
    exists Us, Forall2 (fun t T => shaped (sub_ :: repeat b d) T /\ V (1 :: down d) T = mt_root t) subs Us /\ flat_map fringe Us = flat_map fringe Ts.
  Proof.
    induction gs as [|g gs IH]; intros subs Ts HF HG; inversion HG as [|? u ? us G1 G2]; subst.
    - inversion HF; subst. exists []. split; [constructor|reflexivity].
    - cbn [concat] in HF. apply Forall2_app_inv_l in HF. destruct HF as (T1 & T2 & F1 & F2 & ->).
      destruct (IH us T2 F2 G2) as (Us & U1 & U2).
      pose proof (from_trees_fields SO A _ _ _ G1) as (_ & R & _). pose proof (from_trees_inv SO A _ _ _ G1) as (_ & L & _).
      destruct (layer_leaf_tree (shaped (repeat b d)) (down d) g T1 u F1 R) as (V1 & V2 & V3).
      exists (HN T1 :: Us). split.
      + constructor; [|exact U1]. split; [cbn [shaped]; split; [congruence|exact V2]|exact V1].
      + cbn [flat_map fringe]. rewrite U2, flat_map_app. reflexivity.
  Qed.

  Lemma leaf_htree SO np en b ars hs leaves t : setting EO A SO np en b -> leaf_tree EO SO A en b ars hs leaves t ->
    exists T, shaped ars T /\ fringe T = leaves /\ V hs T = mt_root t.
  Proof.
    intros HS HT.
    assert (TOP : forall lss d f gs f' sub_ top subs t0,
      built_all EO SO A en b lss f (concat gs) f' -> Forall (fun l => List.length l = b ^ d) lss ->
      rmap (from_trees SO A sub_) gs = Ok subs -> from_sub_trees SO A top subs = Ok t0 ->
      exists T, shaped (top :: sub_ :: repeat b d) T /\ fringe T = concat lss /\ V (1 :: 1 :: down d) T = mt_root t0).
    { intros lss d f gs f' sub_ top subs t0 HB HF HR HU. destruct (built_leaf_trees SO np en b d HS _ _ _ _ HB HF) as (Ts & T1 & T2).
      apply rmap_ok_Forall2 in HR. destruct (groups_leaf_trees SO b d sub_ gs subs Ts T1 HR) as (Us & U1 & U2).
      pose proof (from_sub_trees_fields SO A _ _ _ HU) as (_ & R & _). pose proof (from_sub_trees_inv SO A _ _ _ HU) as (_ & L & _).
      destruct (layer_leaf_tree (shaped (sub_ :: repeat b d)) (1 :: down d) subs Us t0 U1 R) as (V1 & V2 & V3).
      exists (HN Us). split; [|split; [cbn [fringe]; congruence|exact V1]]. split; [congruence|exact V2]. }
    destruct HT as [es d f t f' HB HL|ess d f ts f' sub_ t HB HF HU|ess d f gs f' sub_ top subs t HB HF HR HU|ess d f ts f' sub_ top t HB HF HU].
    - eapply base_leaf_tree; eauto.
    - destruct (built_leaf_trees SO np en b d HS _ _ _ _ HB HF) as (Ts & T1 & T2).
      pose proof (from_trees_fields SO A _ _ _ HU) as (_ & R & _). pose proof (from_trees_inv SO A _ _ _ HU) as (_ & L & _).
      destruct (layer_leaf_tree (shaped (repeat b d)) (down d) ts Ts t T1 R) as (V1 & V2 & V3).
      exists (HN Ts). split; [|split; [exact T2|exact V1]]. split; [congruence|exact V2].
    - eapply TOP; eauto.
    - destruct (flat_groups A SO sub_ top ts t HU) as (gs & subs & G1 & G2 & G3 & G4 & G5). subst ts. eapply TOP; eauto.
  Qed.
End Leaf.

(* Any algorithm, also one that mixes in the height: two trees of one shape (compound trees
   too) with equal roots have equal leaves, or two different lists of nodes of one length
   were hashed to one value at the same height. *)
Theorem C91_same_shape : forall E (EO : ElementOps E) A SO np en b ars hs leaves t SO' np' en' b' leaves' t',
  setting EO A SO np en b -> setting EO A SO' np' en' b' ->
  leaf_tree EO SO A en b ars hs leaves t -> leaf_tree EO SO' A en' b' ars hs leaves' t' ->
  mt_root t = mt_root t' ->
  exists T T', shaped ars T /\ fringe T = leaves /\ hvalue (h_node A) hs T = mt_root t /\
    shaped ars T' /\ fringe T' = leaves' /\ hvalue (h_node A) hs T' = mt_root t' /\
    (leaves = leaves' \/ node_clash (h_node A) (calls (h_node A) hs T) (calls (h_node A) hs T')).
Proof.
  intros E EO A SO np en b ars hs leaves t SO' np' en' b' leaves' t' HS HS' HT HT' HR.
  destruct (leaf_htree EO A SO np en b ars hs leaves t HS HT) as (T & T1 & T2 & T3).
  destruct (leaf_htree EO A SO' np' en' b' ars hs leaves' t' HS' HT') as (T' & T1' & T2' & T3').
  exists T, T'. do 6 (split; [assumption|]). destruct HS as (EL & _).
  destruct (hvalue_inj (h_node A) (list_dec EO EL) T T' ars hs T1 T1') as [Q|HC];
    [|left; congruence|right; exact HC].
  transitivity (mt_root t); [exact T3|]. rewrite HR. symmetry. exact T3'.
Qed.

(* The leaf hash is what separates shapes: from_byte_slice stores its elements as they are,
   and the tree over the two inner nodes of a tree of four has the root of the tree of four,
   with no two different lists hashed alike. *)
Definition C91_verbatim_full : Prop :=
  forall E (EO : ElementOps E) A SO np en b ars hs leaves t SO' np' en' b' ars' hs' leaves' t' T T',
  setting EO A SO np en b -> setting EO A SO' np' en' b' ->
  leaf_tree EO SO A en b ars hs leaves t -> leaf_tree EO SO' A en' b' ars' hs' leaves' t' ->
  mt_root t = mt_root t' ->
  shaped ars T -> fringe T = leaves -> shaped ars' T' -> fringe T' = leaves' ->
  leaves = leaves' \/ exists m l m' l', In (m, l) (calls (h_node A) hs T) /\ In (m', l') (calls (h_node A) hs' T') /\ l <> l' /\ h_node A m l = h_node A m' l'.
Definition verbatim (vs : list nat) := from_byte_slice BO (vec_store BO) sum_alg env1 2 (encode BO (map el vs)) fs_empty.
Theorem C91_verbatim_refuted : ~ C91_verbatim_full.
Proof.
  intros HX. set (n1 := val (h_node sum_alg 0 [el 3; el 1])) in *. set (n2 := val (h_node sum_alg 0 [el 4; el 1])) in *.
  assert (G : exists t f t' f', verbatim [3; 1; 4; 1] = (Ok t, f) /\ verbatim [n1; n2] = (Ok t', f') /\ mt_root t = mt_root t').
  { vm_compute. do 4 eexists. split; [reflexivity|]. split; reflexivity. }
  destruct G as (t & f & t' & f' & G1 & G2 & G3).
  assert (HS : setting BO sum_alg (vec_store BO) true env1 2) by (apply setting_intro; [constructor|apply arity_2|split; [cbn; lia|reflexivity]]).
  assert (HB : forall vs u g, verbatim vs = (Ok u, g) -> builder BO (vec_store BO) sum_alg env1 2 (map el vs) fs_empty (Ok u, g)).
  { intros vs u g <-. constructor. }
  pose proof (HX B1 BO sum_alg (vec_store BO) true env1 2 _ _ _ t (vec_store BO) true env1 2 _ _ _ t'
    (HN [HN [HL (el 3); HL (el 1)]; HN [HL (el 4); HL (el 1)]]) (HN [HL (el n1); HL (el n2)]) HS HS
    (FT_base BO (vec_store BO) sum_alg env1 2 _ 2 _ t f (HB _ _ _ G1) eq_refl)
    (FT_base BO (vec_store BO) sum_alg env1 2 _ 1 _ t' f' (HB _ _ _ G2) eq_refl) G3) as Q.
  destruct Q as [Q|(m & l & m' & l' & Q1 & Q2 & Q3 & Q4)].
  - cbn. repeat constructor.
  - reflexivity.
  - cbn. repeat constructor.
  - reflexivity.
  - discriminate.
  - destruct Q2 as [Q2|[]]. injection Q2 as <- <-. apply (f_equal val) in Q4. destruct Q1 as [Q1|[Q1|[Q1|[]]]]; injection Q1 as <- <-.
    + apply Q3. vm_compute. reflexivity.
    + vm_compute in Q4. discriminate.
    + vm_compute in Q4. discriminate.
Qed.

(* four elements in one tree over a file and as two trees of two in memory: one shape, one root;
   as a tree of arity 4: another shape, another root *)
Example C91_case :
  let xs := map el [3; 1; 4; 1] in
  let sub := match case_sub (vec_store BO) sum_alg 2 2 [firstn 2 xs; skipn 2 xs] with Some (t, _) => Ok (val (mt_root t)) | None => Diverge end in
  root_of (mt_new BO (disk_store BO) sum_alg env1 2 xs fs_empty) = sub /\ is_ok sub = true /\
  root_of (mt_new BO (disk_store BO) sum_alg env1 4 xs fs_empty) <> sub /\
  is_ok (root_of (mt_new BO (disk_store BO) sum_alg env1 4 xs fs_empty)) = true /\
  streaming (fun s bs : list byte => s ++ bs).
Proof.
  vm_compute. split; [reflexivity|]. split; [reflexivity|]. split; [discriminate|]. split; [reflexivity|]. apply app_assoc_reverse.
Qed.

Print Assumptions C91_elements.
Print Assumptions C91_determined.
Print Assumptions C91_data.
Print Assumptions C91_same_shape.
Print Assumptions C91_verbatim_refuted.
