(* Compound trees over base trees built by the library in one file system. *)
From Coq Require Import String List Arith Bool Lia Init.Byte ZifyBool ZifyNat.
From Verif Require Import Base Element Hash Sizing FS Sched Store VecStore DiskStore MmapStore ProofModel Tree ListFacts Spec SpecFacts SizingFacts StoreLaws StoreSpec VecFacts DiskFacts MmapFacts PopFacts TreeFacts ProofSpec ProofFacts TreeProofs TreeObs Builders CompoundFacts CompoundTrees CompoundGroups.
Import ListNotations.

(* the trees [ts] were built one after the other, from the leaf lists [lss], each by
   any of the constructors *)
Inductive built_all {E} (EO : ElementOps E) (SO : StoreOps E) (A : AlgOps E) (en : env) (b : nat)
  : list (list E) -> fs -> list (mtree (st_t SO) E) -> fs -> Prop :=
| BA_nil f : built_all EO SO A en b [] f [] f
| BA_cons leaves lss f t f1 ts f2 :
    builder EO SO A en b leaves f (Ok t, f1) -> built_all EO SO A en b lss f1 ts f2 ->
    built_all EO SO A en b (leaves :: lss) f (t :: ts) f2.

Lemma Forall2_concat_inv {X Y} (P : X -> Y -> Prop) : forall (gs : list (list Y)) (l : list X), Forall2 P l (concat gs) ->
  exists ls, concat ls = l /\ Forall2 (Forall2 P) ls gs.
Proof.
  induction gs as [|g gs IH]; intros l H; cbn [concat] in H.
  - inversion H; subst. exists []. split; [reflexivity|constructor].
  - apply Forall2_app_inv_r in H. destruct H as (l1 & l2 & H1 & H2 & ->). destruct (IH _ H2) as (ls & E1 & E2).
    exists (l1 :: ls). split; [cbn; rewrite E1; reflexivity|constructor; auto].
Qed.

Lemma concat_concat {X} : forall (ls : list (list (list X))), concat (concat ls) = concat (map (@concat X) ls).
Proof. induction ls as [|l ls IH]; [reflexivity|]. cbn [concat map]. rewrite concat_app, IH. reflexivity. Qed.

Section CB.
  Context {E : Type} (EO : ElementOps E) (EL : ElementLaws EO) (A : AlgOps E) (AL : AlgLaws A).
  Variables (en : env) (b : nat).
  Hypothesis Hb : arity b.
  Hypothesis Hch : chunk_ok en b.
  Variables (SO : StoreOps E) (np : bool).
  Hypothesis HS : basic_store EO SO np.

  Lemma built_all_ext lss f ts f' : built_all EO SO A en b lss f ts f' -> fs_ext f f'.
  Proof.
    intros H. induction H as [|leaves lss f t f1 ts f2 HB HA IH]; [apply fs_ext_refl|].
    destruct (builder_stable EO EL A AL en b SO np HS leaves f t f1 Hb Hch HB) as (d & els & _ & _ & HX).
    eapply fs_ext_trans; eauto.
  Qed.
  Lemma built_all_full lss f ts f' : built_all EO SO A en b lss f ts f' ->
    Forall2 (fun lv tk => exists d es, FullTree SO A b tk f' d lv es) lss ts.
  Proof.
    intros H. induction H as [|leaves lss f t f1 ts f2 HB HA IH]; [constructor|]. constructor; [|exact IH].
    destruct (builder_stable EO EL A AL en b SO np HS leaves f t f1 Hb Hch HB) as (d & els & _ & HF & _).
    exists d, els. apply HF. eapply built_all_ext; eauto.
  Qed.

  Lemma built_sub lss f ts f' sub_ t : built_all EO SO A en b lss f ts f' -> from_trees SO A sub_ ts = Ok t ->
    exists d ess, List.length ts = sub_ /\ SubAt SO A b t f' d ts lss ess.
  Proof. intros H HT. eapply from_trees_inv_SubAt; eauto. eapply built_all_full; eauto. Qed.

  Lemma built_top lss f gs f' sub_ top subs t : built_all EO SO A en b lss f (concat gs) f' ->
    rmap (from_trees SO A sub_) gs = Ok subs -> from_sub_trees SO A top subs = Ok t ->
    exists d ls, List.length subs = top /\ concat ls = lss /\ TopAt SO A b t f' d sub_ subs ls.
  Proof.
    intros H HR HT. pose proof (built_all_full _ _ _ _ H) as HF. apply Forall2_concat_inv in HF. destruct HF as (ls & E1 & E2).
    apply rmap_ok_Forall2 in HR.
    assert (HX : Forall2 (fun lss tk => exists d bs ess, List.length bs = sub_ /\ SubAt SO A b tk f' d bs lss ess) ls subs).
    { clear - HR E2. revert subs HR. induction E2 as [|ls0 g ls gs H0 E2 IH]; intros subs HR; inversion HR as [|? tk ? subs' HT1 HT2]; subst; constructor; auto.
      destruct (from_trees_inv_SubAt SO A b f' sub_ g tk ls0 H0 HT1) as (d & ess & G1 & G2). eauto. }
    destruct (from_sub_trees_inv_TopAt SO A b f' sub_ top subs t ls HX HT) as (d & G1 & G2). eauto.
  Qed.

  (* an accepted flat list splits into groups *)
  Lemma flat_groups sub_ top (ts : list (mtree (st_t SO) E)) t : from_sub_trees_as_trees SO A sub_ top ts = Ok t ->
    exists gs subs, concat gs = ts /\ List.length gs = top /\ Forall (fun g => List.length g = sub_) gs /\
      rmap (from_trees SO A sub_) gs = Ok subs /\ from_sub_trees SO A top subs = Ok t.
  Proof.
    intros H. assert (Hlen : List.length ts = top * sub_).
    { destruct (Nat.eq_dec (List.length ts) (top * sub_)) as [Q|Q]; [exact Q|].
      destruct (flat_wrong_count SO A sub_ top ts Q) as [e He]. congruence. }
    assert (Hg : exists gs, concat gs = ts /\ List.length gs = top /\ Forall (fun g => List.length g = sub_) gs).
    { clear H. revert ts Hlen. induction top as [|top IH]; intros ts Hlen.
      - exists []. destruct ts; [auto|discriminate].
      - cbn [Nat.mul] in Hlen. destruct (IH (skipn sub_ ts)) as (gs & G1 & G2 & G3); [rewrite skipn_length; lia|].
        exists (firstn sub_ ts :: gs). cbn [concat List.length]. rewrite G1, firstn_skipn. repeat split; auto.
        constructor; auto. rewrite firstn_length. lia. }
    destruct Hg as (gs & G1 & G2 & G3). pose proof (flat_nested SO A gs sub_ G3) as HN. rewrite G1, G2, H in HN.
    destruct HN as [(t' & E1 & E2)|([e E1] & _)]; [|discriminate]. injection E1 as <-.
    destruct (rmap (from_trees SO A sub_) gs) as [subs|?|?|] eqn:HR; try discriminate. exists gs, subs. auto.
  Qed.
End CB.
