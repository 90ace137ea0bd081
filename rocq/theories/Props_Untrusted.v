(* C79: proofs of trees whose stores cannot be trusted any more: damaged files, a
   replica that is not the original, a reader that does not deliver what it says. *)
From Coq Require Import String List Arith NArith Bool Lia Init.Byte ZifyBool ZifyNat.
From Verif Require Import Base Element Hash Sizing FS Sched Store VecStore DiskStore MmapStore LevelCache ProofModel Tree ListFacts Spec SpecFacts SizingFacts SchedFacts StoreLaws RowFacts ChunkFacts BuildFacts BuildLoop StoreSpec FileFacts VecFacts MapLayer DiskFacts MmapFacts PopFacts TreeFacts ProofSpec ProofFacts TreeProofs TreeObs Builders BuiltFacts CompoundFacts CompoundTrees Cases Props_Build Props_Compact.
Import ListNotations.

Lemma Forall2_nth_l {X Y} (R : X -> Y -> Prop) xs ys : Forall2 R xs ys ->
  forall k x, nth_error xs k = Some x -> exists y, nth_error ys k = Some y /\ R x y.
Proof.
  induction 1 as [|x0 y0 xs ys H HF IH]; intros [|k] x Hk; try discriminate; cbn in *.
  - injection Hk as <-. eauto.
  - eauto.
Qed.

Section Untrusted.
  Context {E : Type} (EO : ElementOps E) (EL : ElementLaws EO) (SO : StoreOps E).
  Variable A : AlgOps E.
  Hypothesis AL : AlgLaws A.
  Variable en : env.
  Variable b : nat.
  Hypothesis Hb : arity b.
  Local Notation T := (st_t SO).

  (* t says of itself that it is the tree over these leaves: its counts and its roots
     are the right ones.  Nothing is said about what its stores hold. *)
  Inductive Claims (sub_ top : nat) : mtree T E -> list E -> Prop :=
  | Cl_base t s d leaves :
      mt_data t = BaseTree s -> mt_leafs t = b ^ d -> mt_row_count t = S d ->
      MRoot (h_node A) b d leaves (mt_root t) -> Claims sub_ top t leaves
  | Cl_sub t ts lss n :
      mt_data t = SubTree ts -> List.length ts = sub_ -> mt_leafs t = sub_ * n ->
      Forall2 (fun t' lv => mt_leafs t' = n /\ List.length lv = n /\ Claims 0 0 t' lv) ts lss ->
      Claims sub_ top t (concat lss)
  | Cl_top t ts lss n :
      mt_data t = TopTree ts -> List.length ts = top -> mt_leafs t = top * n ->
      Forall2 (fun t' lv => mt_leafs t' = n /\ List.length lv = n /\ Claims sub_ 0 t' lv) ts lss ->
      Claims sub_ top t (concat lss).

  (* the base layer of a nested proof *)
  Fixpoint bottom (p : proof E) : proof E :=
    match pf_sub p with Some sp => bottom sp | None => p end.

  (* two different lists of nodes with one hash: nodes the proof hashes, and b siblings
     of the tree over some of the leaves *)
  Definition found_collision (p : proof E) (leaves : list E) : Prop :=
    exists d lv els pre post, leaves = pre ++ lv ++ post /\ Layout (h_node A) b d lv els /\
      base_collision A b (bottom p) d els.

  Lemma loop_path : forall fuel (rd : nat -> nat -> res E) len base width j level l path,
    proof_loop b fuel rd (log2_pow2 b) len base width j level = Ok (l, path) ->
    path_index b path = j mod b ^ List.length path.
  Proof.
    pose proof (arity_ge b Hb) as H2. induction fuel as [|fuel IH]; intros rd len base width j level l path H; [discriminate|].
    cbn [proof_loop] in H. destruct (base + 1 <? len).
    - destruct (read_siblings _ _ _) as [sib|?|?|]; try discriminate. cbn [rbind] in H.
      destruct (proof_loop b fuel rd _ len _ _ _ _) as [[l0 p0]|?|?|] eqn:Q; try discriminate. cbn [rbind] in H. injection H as _ <-.
      apply IH in Q. rewrite (arity_shift b j Hb) in Q. cbn [path_index List.length]. rewrite Q, Nat.pow_succ_r'.
      rewrite Nat.mod_mul_r; [reflexivity|lia|apply Nat.pow_nonzero; lia].
    - injection H as _ <-. cbn. reflexivity.
  Qed.
  Lemma partial_path : forall fuel (rd rdp : nat -> res E) len dw cis base width j pb sw ss l path,
    partial_loop b fuel rd rdp (log2_pow2 b) len dw cis base width j pb sw ss = Ok (l, path) ->
    path_index b path = j mod b ^ List.length path.
  Proof.
    pose proof (arity_ge b Hb) as H2. induction fuel as [|fuel IH]; intros rd rdp len dw cis base width j pb sw ss l path H; [discriminate|].
    cbn [partial_loop] in H. destruct (base + 1 <? len).
    - destruct (read_siblings _ _ _) as [sib|?|?|]; try discriminate. cbn [rbind] in H.
      destruct (partial_loop b fuel rd rdp _ len _ _ _ _ _ _ _ _) as [[l0 p0]|?|?|] eqn:Q; try discriminate. cbn [rbind] in H. injection H as _ <-.
      apply IH in Q. rewrite (arity_shift b j Hb) in Q. cbn [path_index List.length]. rewrite Q, Nat.pow_succ_r'.
      rewrite Nat.mod_mul_r; [reflexivity|lia|apply Nat.pow_nonzero; lia].
    - injection H as _ <-. cbn. reflexivity.
  Qed.

  (* what a base proof says whatever was read *)
  Definition about (t : mtree T E) (i : nat) (p : proof E) : Prop :=
    exists lemma path, p = mk_proof None 0 0 lemma path /\ List.length lemma = 2 + (b - 1) * List.length path /\
      pf_root p = Ok (mt_root t) /\ i < mt_leafs t /\ S (List.length path) = mt_row_count t /\ path_index b path = i mod b ^ List.length path.

  Lemma about_intro t i x sibs path rc1 p : i < mt_leafs t -> path_index b path = i mod b ^ List.length path ->
    checked_sub (mt_row_count t) 1 = Ok rc1 ->
    (do _ <- ensure (List.length path =? rc1) "Invalid proof path length";
     proof_new b 0 0 None (x :: sibs ++ [mt_root t]) path) = Ok p -> about t i p.
  Proof.
    intros Hi Hp H1 H. unfold checked_sub in H1. destruct (1 <=? mt_row_count t) eqn:G; [|discriminate]. injection H1 as <-.
    destruct (List.length path =? mt_row_count t - 1) eqn:Q; [|discriminate]. cbn [ensure rbind] in H.
    apply proof_new_inv in H. destruct H as [-> HL]. exists (x :: sibs ++ [mt_root t]), path. repeat split; auto; try lia.
    unfold pf_root. cbn [pf_lemma]. cbn [rev]. rewrite rev_app_distr. reflexivity.
  Qed.

  Ltac step H := match type of H with (rbind ?m _) = Ok _ => let G := fresh "G" in destruct m eqn:G; try discriminate; cbn [rbind] in H end.

  Lemma gen_about sub_ top t s f i p : gen_proof_base SO b sub_ top t s f i = Ok p -> about t i p.
  Proof.
    unfold gen_proof_base. destruct (i <? mt_leafs t) eqn:Hi; [|discriminate]. cbn [ensure rbind].
    intros H. step H. step H. step H. step H. step H. step H. step H. step H. match type of H with (let (_, _) := ?q in _) = _ => destruct q as [sibs path] end.
    step H. apply loop_path in G6. exact (about_intro t i _ sibs path _ p ltac:(lia) G6 G2 H).
  Qed.

  Lemma cached_about sub_ top t s f i rows p : gen_cached_proof_base EO SO A en b sub_ top t s f i rows = Ok p -> about t i p.
  Proof.
    unfold gen_cached_proof_base. destruct (i <? mt_leafs t) eqn:Hi; [|discriminate]. cbn [ensure rbind].
    intros H. step H. step H. step H. step H. step H. step H. step H. destruct (_ =? 0); [discriminate|].
    step H. step H. step H. step H. step H. step H. clear - H Hb.
    unfold gen_proof_with_partial_tree in H. destruct (i <? mt_leafs t) eqn:Hi; [|discriminate]. cbn [ensure rbind] in H.
    step H. step H. step H. step H. step H. step H. step H. destruct (_ =? 0); [discriminate|].
    step H. step H. step H. step H. step H. step H. match type of H with (let (_, _) := ?q in _) = _ => destruct q as [sibs path] end. step H.
    match goal with Q : partial_loop _ _ _ _ _ _ _ _ _ _ _ _ _ _ = _ |- _ => apply partial_path in Q; refine (about_intro t i _ sibs path _ p ltac:(lia) Q _ H) end.
    assumption.
  Qed.

  Lemma layout_of d leaves root : MRoot (h_node A) b d leaves root ->
    exists els, Layout (h_node A) b d leaves els /\ nth_error els (geom b d - 1) = Some root.
  Proof.
    intros H. pose proof (arity_ge b Hb) as H2. pose proof (MRoot_length _ _ _ _ _ H) as Hl.
    exists (all_rows A b leaves d). pose proof (all_rows_Layout A b ltac:(lia) leaves d Hl) as HL. split; [exact HL|].
    destruct HL as (L1 & L2 & L3). destruct (nth_error (all_rows A b leaves d) (geom b d - 1)) as [y|] eqn:Ey.
    - f_equal. symmetry. refine (MRoot_fun (h_node A) b d leaves root H y _). exact (Layout_root b ltac:(lia) (h_node A) d leaves _ y (conj L1 (conj L2 L3)) Ey).
    - apply nth_error_None in Ey. pose proof (geom_pos b d). lia.
  Qed.

  Lemma about_sound t i p d leaves : mt_leafs t = b ^ d -> mt_row_count t = S d -> MRoot (h_node A) b d leaves (mt_root t) ->
    about t i p -> validate EO A b p = Ok true ->
    bottom p = p /\ (pf_item p = rnth leaves i \/ exists els, Layout (h_node A) b d leaves els /\ base_collision A b p d els).
  Proof.
    intros T1 T2 T3 (lemma & path & -> & L & R & I & P & Q) HV. split; [reflexivity|].
    assert (Hd : List.length path = d) by lia. destruct (layout_of d leaves _ T3) as (els & HL & HR).
    set (p := mk_proof None 0 0 lemma path) in *.
    assert (HC : claimed_index b p d = i).
    { unfold claimed_index. cbn [p pf_path]. rewrite <- Hd, firstn_all, Q, Hd. apply Nat.mod_small. lia. }
    destruct (base_sound EO EL A AL b Hb d leaves els (mt_root t) p) as [H1 H]; auto.
    - cbn [p pf_lemma]. rewrite L, Hd. apply levels_at_full. apply arity_ge. exact Hb.
    - rewrite HC in H. destruct H as [H|H]; [left; exact H|right]. exists els. split; [exact HL|]. unfold base_collision. rewrite HC. exact H.
  Qed.

  Lemma child_at (ts : list (mtree T E)) lss n (P : mtree T E -> list E -> Prop) i :
    Forall2 (fun t' lv => mt_leafs t' = n /\ List.length lv = n /\ P t' lv) ts lss -> 0 < n ->
    forall tk, nth_error ts (i / n) = Some tk -> exists lv pre post, mt_leafs tk = n /\ P tk lv /\ concat lss = pre ++ lv ++ post /\
      rnth (concat lss) i = rnth lv (i mod n).
  Proof.
    intros HF Hn tk Hk.
    destruct (Forall2_nth_l _ _ _ HF _ _ Hk) as (lv & H1 & H2 & H3 & H4).
    destruct (nth_error_split lss (i / n) H1) as (p1 & p2 & Hs & Hl).
    exists lv, (concat p1), (concat p2). split; [exact H2|]. split; [exact H4|].
    split; [rewrite Hs, concat_app; reflexivity|].
    assert (HA : Forall (fun l => List.length l = n) lss).
    { clear - HF. induction HF as [|? ? ? ? (A1 & A2 & A3)]; constructor; auto. }
    unfold rnth. pose proof (nth_error_concat lss n (i / n) (i mod n) lv HA H1 (Nat.mod_upper_bound i n ltac:(lia))) as G.
    replace (i / n * n + i mod n) with i in G by (pose proof (Nat.div_mod i n ltac:(lia)); lia). rewrite G. reflexivity.
  Qed.

  Definition right (p : proof E) (i : nat) (leaves : list E) : Prop :=
    pf_item (bottom p) = rnth leaves i \/ found_collision p leaves.

  Lemma base_right t i p d leaves : mt_leafs t = b ^ d -> mt_row_count t = S d -> MRoot (h_node A) b d leaves (mt_root t) ->
    about t i p -> validate EO A b p = Ok true -> right p i leaves.
  Proof.
    intros T1 T2 T3 H HV. destruct (about_sound t i p d leaves T1 T2 T3 H HV) as [B [G|(els & G1 & G2)]].
    - left. rewrite B. exact G.
    - right. exists d, leaves, els, [], []. rewrite B, app_nil_r. auto.
  Qed.

  (* a layer over a proof of one of the children *)
  Lemma layer_right top sub_ sp lemma path p i j lss lv pre post : 0 < top \/ 0 < sub_ ->
    proof_new b top sub_ (Some sp) lemma path = Ok p -> validate EO A b p = Ok true ->
    concat lss = pre ++ lv ++ post -> rnth (concat lss) i = rnth lv j ->
    (validate EO A b sp = Ok true -> right sp j lv) -> right p i (concat lss).
  Proof.
    intros Hp HN HV HC HI HS.
    assert (HN' : p = mk_proof (Some sp) top sub_ lemma path).
    { unfold proof_new in HN. replace ((top =? 0) && (sub_ =? 0)) with false in HN by (destruct Hp; lia). cbn [rbind] in HN. congruence. }
    subst p. assert (HV' : validate EO A b sp = Ok true).
    { cbn [validate pf_top_nodes pf_sub_nodes pf_sub] in HV. destruct (0 <? top) eqn:G1.
      - destruct (validate EO A b sp) as [[|]|?|?|]; try discriminate; reflexivity.
      - replace (0 <? sub_) with true in HV by (destruct Hp; lia). destruct (validate EO A b sp) as [[|]|?|?|]; try discriminate; reflexivity. }
    destruct (HS HV') as [H|(d & lv' & els & pre' & post' & H1 & H2 & H3)].
    - left. cbn [bottom pf_sub]. rewrite H, HI. reflexivity.
    - right. exists d, lv', els, (pre ++ pre'), (post' ++ post). split; [rewrite HC, H1, !app_assoc; reflexivity|]. split; [exact H2|]. exact H3.
  Qed.

  (* compound trees: both generators walk to the child the index belongs to *)
  Lemma sub_gen_right rec sub_ top t i tl arity p ts lss n (P : mtree T E -> list E -> Prop) :
    gen_sub_tree_proof SO b rec sub_ top t i tl arity = Ok p -> validate EO A b p = Ok true ->
    (if tl then mt_sub_trees SO t else mt_base_trees SO t) = Ok ts -> arity = List.length ts -> mt_leafs t = arity * n ->
    (0 < arity -> 0 < top \/ 0 < sub_) ->
    Forall2 (fun t' lv => mt_leafs t' = n /\ List.length lv = n /\ P t' lv) ts lss ->
    (forall t' lv j sp, P t' lv -> rec t' j = Ok sp -> validate EO A b sp = Ok true -> right sp j lv) ->
    right p i (concat lss).
  Proof.
    intros H HV Hts Ha Hlf Hpos HF IH. unfold gen_sub_tree_proof in H. rewrite Hts in H. cbn [rbind] in H.
    destruct (arity =? 0) eqn:E0; [discriminate|]. cbn [negb ensure rbind] in H.
    rewrite Hlf, (Nat.mul_comm arity n), Nat.div_mul in H by lia. destruct (n =? 0) eqn:En; [discriminate|].
    step H. destruct (rnth ts (i / n)) as [tk|?|?|] eqn:Ek; try discriminate. cbn [rbind] in H.
    unfold rnth in Ek. destruct (nth_error ts (i / n)) as [tk'|] eqn:Ek'; [|discriminate]. injection Ek as ->.
    destruct (child_at ts lss n P i HF ltac:(lia) tk Ek') as (lv & pre & post & C1 & C2 & C3 & C4).
    rewrite C1, En in H. destruct (rec tk (i mod n)) as [sp|?|?|] eqn:Er; try discriminate. cbn [rbind] in H. step H.
    eapply (layer_right top sub_ sp _ _ p i (i mod n) lss lv pre post); eauto. apply Hpos. lia.
  Qed.
  Lemma cached_gen_right rec sub_ top t i arity p ts lss n (P : mtree T E -> list E -> Prop) :
    gen_cached_compound_proof SO b rec sub_ top arity (Ok ts) t i = Ok p -> validate EO A b p = Ok true ->
    mt_leafs t = arity * n ->
    (0 < arity -> 0 < top \/ 0 < sub_) ->
    Forall2 (fun t' lv => mt_leafs t' = n /\ List.length lv = n /\ P t' lv) ts lss ->
    (forall t' lv j sp, P t' lv -> rec t' j = Ok sp -> validate EO A b sp = Ok true -> right sp j lv) ->
    right p i (concat lss).
  Proof.
    intros H HV Hlf Hpos HF IH. unfold gen_cached_compound_proof in H. cbn [rbind] in H.
    destruct (arity =? 0) eqn:E0; [discriminate|]. cbn [negb ensure rbind] in H. step H.
    rewrite Hlf, (Nat.mul_comm arity n), Nat.div_mul in H by lia. destruct (n =? 0) eqn:En; [discriminate|].
    destruct (rnth ts (i / n)) as [tk|?|?|] eqn:Ek; try discriminate. cbn [rbind] in H.
    unfold rnth in Ek. destruct (nth_error ts (i / n)) as [tk'|] eqn:Ek'; [|discriminate]. injection Ek as ->.
    destruct (child_at ts lss n P i HF ltac:(lia) tk Ek') as (lv & pre & post & C1 & C2 & C3 & C4).
    rewrite C1, En in H. destruct (rec tk (i mod n)) as [sp|?|?|] eqn:Er; try discriminate. cbn [rbind] in H. step H.
    eapply (layer_right top sub_ sp _ _ p i (i mod n) lss lv pre post); eauto. apply Hpos. lia.
  Qed.

  Lemma gen_right : forall fuel sub_ top t leaves f i p, Claims sub_ top t leaves ->
    gen_proof_n SO b fuel sub_ top t f i = Ok p -> validate EO A b p = Ok true -> right p i leaves.
  Proof.
    induction fuel as [|fuel IH]; intros sub_ top t leaves f i p HC HG HV; [discriminate|].
    cbn [gen_proof_n] in HG. inversion HC as [? s d ? D1 D2 D3 D4|? ts lss n D1 D2 D3 D4|? ts lss n D1 D2 D3 D4]; subst; rewrite D1 in HG.
    - apply gen_about in HG. exact (base_right t i p d leaves D2 D3 D4 HG HV).
    - refine (sub_gen_right _ _ _ t i false _ p ts lss n (Claims 0 0) HG HV _ eq_refl D3 _ D4 _); [unfold mt_base_trees; rewrite D1; reflexivity|auto|].
      intros t' lv j sp C1 C2 C3. exact (IH _ _ _ _ _ _ _ C1 C2 C3).
    - refine (sub_gen_right _ _ _ t i true _ p ts lss n (Claims sub_ 0) HG HV _ eq_refl D3 _ D4 _); [unfold mt_sub_trees; rewrite D1; reflexivity|auto|].
      intros t' lv j sp C1 C2 C3. exact (IH _ _ _ _ _ _ _ C1 C2 C3).
  Qed.
  Lemma cached_right : forall fuel sub_ top t leaves f i rows p, Claims sub_ top t leaves ->
    gen_cached_proof_n EO SO A en b fuel sub_ top t f i rows = Ok p -> validate EO A b p = Ok true -> right p i leaves.
  Proof.
    induction fuel as [|fuel IH]; intros sub_ top t leaves f i rows p HC HG HV; [discriminate|].
    cbn [gen_cached_proof_n] in HG. inversion HC as [? s d ? D1 D2 D3 D4|? ts lss n D1 D2 D3 D4|? ts lss n D1 D2 D3 D4]; subst; rewrite D1 in HG.
    - apply cached_about in HG. exact (base_right t i p d leaves D2 D3 D4 HG HV).
    - unfold mt_base_trees in HG. rewrite D1 in HG.
      refine (cached_gen_right _ _ _ t i _ p ts lss n (Claims 0 0) HG HV D3 _ D4 _); [auto|].
      intros t' lv j sp C1 C2 C3. exact (IH _ _ _ _ _ _ _ _ C1 C2 C3).
    - unfold mt_sub_trees in HG. rewrite D1 in HG.
      refine (cached_gen_right _ _ _ t i _ p ts lss n (Claims sub_ 0) HG HV D3 _ D4 _); [auto|].
      intros t' lv j sp C1 C2 C3. exact (IH _ _ _ _ _ _ _ _ C1 C2 C3).
  Qed.
End Untrusted.

(* ---------------- C79 ---------------- *)
(* any store, in any state, over any files *)
Theorem C79_proofs : forall E (EO : ElementOps E) (SO : StoreOps E) A en b sub_ top t leaves f i p,
  ElementLaws EO -> AlgLaws A -> arity b ->
  Claims SO A b sub_ top t leaves ->
  gen_proof SO b sub_ top t f i = Ok p \/ (exists rows, gen_cached_proof EO SO A en b sub_ top t f i rows = Ok p) ->
  validate EO A b p = Ok true ->
  pf_item (bottom p) = rnth leaves i \/ found_collision A b p leaves.
Proof.
  intros E EO SO A en b sub_ top t leaves f i p EL AL Hb HC [HG|(rows & HG)] HV.
  - exact (gen_right EO EL SO A AL b Hb 3 sub_ top t leaves f i p HC HG HV).
  - exact (cached_right EO EL SO A AL en b Hb 3 sub_ top t leaves f i rows p HC HG HV).
Qed.

(* a base tree put over any store answers to the leaves of its root *)
Theorem C79_opened : forall E (EO : ElementOps E) (SO : StoreOps E) A b s f t f' leaves d,
  ElementLaws EO -> arity b ->
  from_data_store SO b 0 0 s (b ^ d) f = (Ok t, f') ->
  MRoot (h_node A) b d leaves (mt_root t) ->
  Claims SO A b 0 0 t leaves.
Proof.
  intros E EO SO A b s f t f' leaves d EL Hb H HR.
  assert (mt_data t = BaseTree s /\ mt_leafs t = b ^ d /\ mt_row_count t = S d) as (H1 & H2 & H3).
  { unfold from_data_store in H. cbn [Nat.eqb] in H. unfold sbind, slift, ensure, sreads, sret in H.
    repeat match type of H with context [if ?c then _ else _] => destruct c; try discriminate end.
    repeat match type of H with context [match ?c with Ok _ => _ | Err _ => _ | Panic _ => _ | Diverge => _ end] => destruct c; try discriminate; cbn [fst snd] in H end.
    all: injection H as <- _; cbn; rewrite (row_count_full b d Hb); auto. }
  exact (Cl_base SO A b 0 0 t s d leaves H1 H2 H3 HR).
Qed.

(* compound trees put together from such trees *)
Theorem C79_opened_compound : forall E (SO : StoreOps E) A b sub_ top ts t lss n,
  (from_trees SO A sub_ ts = Ok t ->
   Forall2 (fun t' lv => mt_leafs t' = n /\ List.length lv = n /\ Claims SO A b 0 0 t' lv) ts lss ->
   Claims SO A b sub_ top t (concat lss)) /\
  (from_sub_trees SO A top ts = Ok t ->
   Forall2 (fun t' lv => mt_leafs t' = n /\ List.length lv = n /\ Claims SO A b sub_ 0 t' lv) ts lss ->
   Claims SO A b sub_ top t (concat lss)).
Proof.
  intros E SO A b sub_ top ts t lss n.
  assert (HS : forall P, Forall2 (fun (t' : mtree (st_t SO) E) (lv : list E) => mt_leafs t' = n /\ List.length lv = n /\ P t' lv) ts lss -> sum_by SO mt_leafs ts = List.length ts * n).
  { intros P HF. apply sum_by_same. clear - HF. induction HF as [|? ? ? ? (A1 & A2 & A3)]; constructor; auto. }
  split; intros H HF; pose proof (HS _ HF) as HS'; [unfold from_trees in H|unfold from_sub_trees in H];
    (destruct (0 <? _); [|discriminate]); cbn [ensure rbind] in H; (destruct (all_same SO mt_row_count ts); [|discriminate]); cbn [ensure rbind] in H;
    (destruct (all_same SO (mt_len SO) ts); [|discriminate]); cbn [ensure rbind] in H; (destruct (_ =? _) eqn:Q; [|discriminate]); cbn [ensure rbind] in H;
    apply Nat.eqb_eq in Q; (destruct (rnth ts 0) as [t0|?|?|]; try discriminate); cbn [rbind] in H; injection H as <-.
  - apply (Cl_sub SO A b sub_ top _ ts lss n); [reflexivity|exact Q|cbn [mt_leafs]; rewrite HS', Q; reflexivity|exact HF].
  - apply (Cl_top SO A b sub_ top _ ts lss n); [reflexivity|exact Q|cbn [mt_leafs]; rewrite HS', Q; reflexivity|exact HF].
Qed.

(* if only the root of the compound tree is known to be right: so are those of its
   children, or they collide with the right ones *)
Theorem C79_roots : forall E (EO : ElementOps E) (SO : StoreOps E) A n ts t roots,
  ElementLaws EO ->
  from_trees SO A n ts = Ok t \/ from_sub_trees SO A n ts = Ok t ->
  mt_root t = h_node A 1 roots ->
  map mt_root ts = roots \/ (map mt_root ts <> roots /\ h_node A 1 (map mt_root ts) = h_node A 1 roots).
Proof.
  intros E EO SO A n ts t roots EL H HR.
  assert (HT : mt_root t = h_node A 1 (map mt_root ts)).
  { destruct H as [H|H]; [unfold from_trees in H|unfold from_sub_trees in H];
    (destruct (0 <? _); [|discriminate]); cbn [ensure rbind] in H; (destruct (all_same SO mt_row_count ts); [|discriminate]); cbn [ensure rbind] in H;
    (destruct (all_same SO (mt_len SO) ts); [|discriminate]); cbn [ensure rbind] in H; (destruct (_ =? _) eqn:Q; [|discriminate]); cbn [ensure rbind] in H;
    (destruct (rnth ts 0) as [t0|?|?|]; try discriminate); cbn [rbind] in H; injection H as <-; reflexivity. }
  assert (Dec : forall x y : E, {x = y} + {x <> y}).
  { intros x y. destruct (e_eqb EO x y) eqn:G; [left; apply (el_eqb EO EL); exact G|right; intros K; apply (el_eqb EO EL) in K; congruence]. }
  destruct (list_eq_dec Dec (map mt_root ts) roots) as [K|K]; [left; exact K|right]. split; [exact K|]. congruence.
Qed.

(* ---------------- C80 ---------------- *)
(* full statement (false): a read through an external reader is an error when the reader
   returns an error or reports fewer bytes than were asked for, and otherwise returns the
   bytes delivered.  Missing: the reported count is not looked at. *)
Definition through {X} (r : res (nat * list byte)) (k : list byte -> res X) : res X :=
  match r with
  | Ok (_, d) => k d
  | Err m => Err m
  | Panic m => Panic m
  | Diverge => Diverge
  end.
Theorem C80_reads_partial : forall E (EO : ElementOps E) s r f k lo hi buf,
  0 < e_byte_len EO ->
  lc_reader s = Some r -> k < lc_data_width s -> k < lc_len s ->
  lo < lc_data_width s -> lo < hi -> hi <= lc_len s ->
  let bl := e_byte_len EO in
  lc_read_at EO (s, f) k = through (er_read r f (k * bl) (k * bl + bl) (repeat x00 bl)) (e_from_slice EO) /\
  lc_read_range EO (s, f) lo hi = through (er_read r f (lo * bl) (hi * bl) (repeat x00 (hi * bl - lo * bl))) (decode EO) /\
  lc_read_into EO (s, f) k buf = through (er_read r f (k * bl) (k * bl + bl) buf) Ok /\
  lc_read_range_into EO (s, f) lo hi buf = through (er_read r f (lo * bl) (hi * bl) buf) Ok.
Proof.
  intros E EO s r f k lo hi buf Hbl Hr Hk Hkl Hlo Hlh Hhi bl.
  assert (Q : forall a c, a < lc_data_width s -> a < c -> c <= lc_len s ->
    lc_check EO (s, f) (a * bl) (c * bl) = Ok tt /\ lc_in_bounds EO s (a * bl) = true /\ (a * bl <? lc_data_width s * bl) = true /\ a * bl <= c * bl).
  { intros a c H1 H2 H3. fold bl in Hbl.
    assert (a * bl < lc_data_width s * bl) by (apply Nat.mul_lt_mono_pos_r; lia).
    assert (a * bl < lc_len s * bl) by (apply Nat.mul_lt_mono_pos_r; lia).
    assert (c * bl <= lc_len s * bl) by (apply Nat.mul_le_mono_r; lia).
    assert (a * bl <= c * bl) by (apply Nat.mul_le_mono_r; lia).
    assert (B : lc_in_bounds EO s (a * bl) = true) by (unfold lc_in_bounds; fold bl; apply orb_true_iff; left; apply Nat.leb_le; lia).
    split; [|split; [exact B|split; [apply Nat.ltb_lt; lia|assumption]]].
    unfold lc_check. cbn [fst]. fold bl. rewrite B. replace (a * bl <? lc_len s * bl) with true by (symmetry; apply Nat.ltb_lt; lia).
    replace (c * bl <=? lc_len s * bl) with true by (symmetry; apply Nat.leb_le; lia). reflexivity. }
  destruct (Q k (S k) Hk ltac:(lia) ltac:(lia)) as (A1 & A2 & A3 & A4).
  replace (S k * bl) with (k * bl + bl) in A1, A4 by (cbn; lia).
  destruct (Q lo hi Hlo Hlh Hhi) as (B1 & B2 & B3 & B4). clear Q.
  unfold lc_read_at, lc_read_range, lc_read_into, lc_read_range_into. fold bl. rewrite A1, B1. cbn [rbind].
  unfold lc_store_read_range, lc_store_read_into, er_data, checked_sub. cbn [fst snd]. fold bl. rewrite A2, A3, B2, B3, Hr.
  replace (k * bl <=? k * bl + bl) with true by (symmetry; apply Nat.leb_le; lia). replace (lo * bl <=? hi * bl) with true by (symmetry; apply Nat.leb_le; lia).
  cbn [ensure rbind]. replace (k * bl + bl - k * bl) with bl by lia.
  repeat split; unfold through.
  - destruct (er_read r f _ _ _) as [[n d]|?|?|]; reflexivity.
  - destruct (er_read r f _ _ _) as [[n d]|?|?|]; reflexivity.
  - destruct (er_read r f _ _ _) as [[n d]|?|?|]; reflexivity.
  - destruct (er_read r f _ _ _) as [[n d]|?|?|]; reflexivity.
Qed.

Lemma bad_reader {E} (EO : ElementOps E) s r f lo hi buf x : 0 < e_byte_len EO -> lc_reader s = Some r -> lo < lc_data_width s ->
  (forall lo hi buf, is_ok (er_read r f lo hi buf) = false) -> lc_read_range_into EO (s, f) lo hi buf = Ok x -> False.
Proof.
  intros Hbl Hr Hlo Hf H. unfold lc_read_range_into in H. destruct (lc_check _ _ _ _); try discriminate. cbn [rbind] in H.
  unfold lc_store_read_into in H. cbn [fst snd] in H. destruct (ensure _ _); try discriminate. cbn [rbind] in H.
  replace (lo * e_byte_len EO <? lc_data_width s * e_byte_len EO) with true in H
    by (symmetry; apply Nat.ltb_lt; apply Nat.mul_lt_mono_pos_r; lia).
  rewrite Hr in H. unfold er_data in H.
  pose proof (Hf (lo * e_byte_len EO) (hi * e_byte_len EO) buf) as Hx. destruct (er_read r f _ _ _); discriminate.
Qed.
(* a reader that fails on every read: no cached proof comes out *)
Theorem C80_proofs_partial : forall E (EO : ElementOps E) A en b (t : mtree (st_t (lc_store EO)) E) s r f i rows p,
  0 < e_byte_len EO ->
  mt_data t = BaseTree s -> lc_reader s = Some r -> mt_leafs t = lc_data_width s ->
  (forall lo hi buf, is_ok (er_read r f lo hi buf) = false) ->
  gen_cached_proof EO (lc_store EO) A en b 0 0 t f i rows <> Ok p.
Proof.
  intros E EO A en b t s r f i rows p Hbl Hd Hr Hw Hf H. unfold gen_cached_proof in H. cbn [gen_cached_proof_n] in H. rewrite Hd in H.
  unfold gen_cached_proof_base in H. destruct (i <? mt_leafs t) eqn:Hi; [|discriminate]. cbn [ensure rbind] in H.
  repeat match type of H with (rbind ?m _) = Ok _ => let G := fresh "G" in destruct m eqn:G; try discriminate; cbn [rbind] in H
         | (if _ then Panic _ else _) = _ => destruct (_ =? 0) eqn:?; [discriminate|] end.
  match goal with G : st_read_range_into _ _ ?a ?c _ = Ok _ |- _ => refine (bad_reader EO s r f a c _ _ Hbl Hr _ Hf G); rewrite <- Hw end.
  match goal with |- ?i / ?w * ?w < _ => pose proof (Nat.mul_div_le i w ltac:(lia)); lia end.
Qed.

(* eight leaves on disk, one row dropped (version 2), opened with the reader rd *)
Definition over (rd : ExternalReader) : res (mtree lc_t B1) * fs :=
  match case_built 2 leaves8 with
  | (Ok t, f) =>
      match mt_compact (disk_store BO) 2 (fun k => k mod 3) (cfg_r 1) 2 (t, f) with
      | (Ok _, (_, f')) =>
          match lc_new_from_disk_with_reader BO 15 2 (cfg_r 1) rd f' with
          | (Ok s, f2) => from_data_store (lc_store BO) 2 0 0 s 8 f2
          | (_, f2) => (Err "not opened", f2)
          end
      | (_, (_, f')) => (Err "not compacted", f')
      end
  | (_, f) => (Err "not built", f)
  end.
(* a proof for leaf i: the item it carries and what validate says *)
Definition over_proof (rd : ExternalReader) (i : nat) : option (nat * res bool) :=
  match over rd with
  | (Ok t, f) =>
      match gen_cached_proof BO (lc_store BO) sum_alg env1 2 0 0 t f i (Some 1) with
      | Ok p => match pf_item p with Ok x => Some (val x, validate BO sum_alg 2 p) | _ => None end
      | _ => None
      end
  | _ => None
  end.
Definition over_read (rd : ExternalReader) (i : nat) : option nat :=
  match over rd with
  | (Ok t, f) => match mt_read_at (lc_store BO) 0 0 t f i with Ok x => Some (val x) | _ => None end
  | _ => None
  end.
(* serves [data], and reports that it delivered [n] bytes *)
Definition serving (n : nat -> nat -> nat) (data : list B1) : ExternalReader :=
  {| er_offset := 0; er_read_fn := fun _ s e _ => Ok (n s e, sub (encode BO data) s (e - s)) |}.
(* delivers nothing and says so *)
Definition silent : ExternalReader := {| er_offset := 0; er_read_fn := fun _ _ _ buf => Ok (0, buf) |}.
Definition honest := map (h_leaf sum_alg) leaves8.
Definition altered := firstn 3 honest ++ el 99 :: skipn 4 honest.

Example C79_case :
  root_of (over (serving (fun s e => e - s) altered)) = Ok 190 /\ root_of (case_built 2 leaves8) = Ok 190 /\
  map val honest = [21; 19; 22; 19; 23; 27; 20; 24] /\
  map (over_proof (serving (fun s e => e - s) honest)) (seq 0 8) =
    [Some (21, Ok true); Some (19, Ok true); Some (22, Ok true); Some (19, Ok true);
     Some (23, Ok true); Some (27, Ok true); Some (20, Ok true); Some (24, Ok true)] /\
  (* leaf 3 altered in the replica *)
  map (over_proof (serving (fun s e => e - s) altered)) (seq 0 8) =
    [Some (21, Ok false); Some (19, Ok false); Some (22, Ok false); Some (99, Ok false);
     Some (23, Ok true); Some (27, Ok true); Some (20, Ok true); Some (24, Ok true)].
Proof. vm_compute. repeat split; reflexivity. Qed.

(* a reader that reports 0 bytes is believed: every leaf reads as zeros *)
Theorem C80_refuted :
  (forall E (EO : ElementOps E) s f k, 0 < e_byte_len EO -> lc_reader s = Some silent ->
     k < lc_data_width s -> k < lc_len s ->
     lc_read_at EO (s, f) k = e_from_slice EO (repeat x00 (e_byte_len EO))) /\
  map (over_read silent) (seq 0 8) = repeat (Some 0) 8 /\
  map (over_proof silent) (seq 0 8) = repeat (Some (0, Ok false)) 8.
Proof.
  split; [|vm_compute; split; reflexivity].
  intros E EO s f k Hbl Hr Hk Hl. destruct (C80_reads_partial E EO s silent f k k (S k) [] Hbl Hr Hk Hl Hk ltac:(lia) ltac:(lia)) as (H & _). exact H.
Qed.
Example C80_case :
  (* counts make no difference *)
  map (over_read (serving (fun _ _ => 0) honest)) (seq 0 8) = map Some [21; 19; 22; 19; 23; 27; 20; 24] /\
  (* a failing reader *)
  map (over_read {| er_offset := 0; er_read_fn := fun _ _ _ _ => Err "gone"%string |}) (seq 0 8) = repeat None 8 /\
  map (over_proof {| er_offset := 0; er_read_fn := fun _ _ _ _ => Err "gone"%string |}) (seq 0 8) = repeat None 8.
Proof. vm_compute. repeat split; reflexivity. Qed.

Print Assumptions C79_proofs.
Print Assumptions C79_opened.
Print Assumptions C79_opened_compound.
Print Assumptions C79_roots.
Print Assumptions C80_reads_partial.
Print Assumptions C80_proofs_partial.
Print Assumptions C80_refuted.
