(* Facts for C83. *)
From Coq Require Import String List Arith Bool Lia Init.Byte ZifyBool ZifyNat.
From Verif Require Import Base Element Hash Sizing FS Sched Store VecStore ProofModel Tree ListFacts Spec SpecFacts SizingFacts StoreLaws StoreSpec ProofSpec ProofFacts TreeProofs TreeObs CompoundFacts CompoundTrees HashTree.
Import ListNotations.

Section P.
  Context {E : Type}.
  Lemma proof_ind' (P : proof E -> Prop) :
    (forall p, pf_sub p = None -> P p) -> (forall p sp, pf_sub p = Some sp -> P sp -> P p) -> forall p, P p.
  Proof.
    intros H0 H1. fix IH 1. intros p. destruct p as [[sp|] tn sn l pa] eqn:Q.
    - apply (H1 _ sp); [reflexivity|apply IH].
    - apply H0. reflexivity.
  Qed.
  Lemma htree_ind' (P : htree E -> Prop) :
    (forall x, P (HL x)) -> (forall cs, Forall P cs -> P (HN cs)) -> forall t, P t.
  Proof.
    intros H0 H1. fix IH 1. intros [x|cs]; [apply H0|]. apply H1. revert cs. fix IHl 1. intros [|c cs]; constructor; auto.
  Qed.
End P.

Section Shape.
  Context {E : Type}.

  Lemma fringe_length : forall (t : htree E) ars, shaped ars t -> List.length (fringe t) = product ars.
  Proof.
    induction t as [x|cs IH] using htree_ind'; intros [|a ars] Hs; try (destruct Hs); [reflexivity|].
    rename H into Hl, H0 into HF. cbn [fringe product fold_right]. rewrite flat_map_concat_map.
    rewrite (concat_length_const _ (product ars)); [rewrite map_length, Hl; reflexivity|].
    clear Hl. induction HF; cbn [map]; constructor; inversion IH; subst; auto.
  Qed.

  Lemma descend_leaf : forall (t : htree E) ars addr x, shaped ars t -> descend t addr = Some (HL x) ->
    List.length addr = List.length ars /\ nth_error (fringe t) (addr_index ars addr) = Some x.
  Proof.
    induction t as [y|cs IH] using htree_ind'; intros [|a ars] addr x Hs Hd; try (destruct Hs; fail).
    - destruct addr as [|c r]; cbn in Hd; [|discriminate]. injection Hd as <-. split; reflexivity.
    - destruct Hs as [Hl HF]. destruct addr as [|c r]; cbn [descend] in Hd; [discriminate|].
      destruct (nth_error cs c) as [u|] eqn:Hu; [|discriminate]. rewrite Forall_forall in IH, HF.
      pose proof (nth_error_In _ _ Hu) as Hi. destruct (IH u Hi ars r x (HF u Hi) Hd) as [G1 G2].
      split; [cbn; congruence|]. cbn [fringe addr_index]. rewrite flat_map_concat_map.
      pose proof (nth_error_lt _ _ _ G2) as HLt. rewrite (fringe_length u ars) in HLt by auto.
      assert (HC : Forall (fun l => List.length l = product ars) (map fringe cs)).
      { apply Forall_forall. intros l Hin. apply in_map_iff in Hin. destruct Hin as (v & <- & Hv). apply fringe_length; auto. }
      pose proof (sub_concat (map fringe cs) (product ars) c (fringe u) HC) as Q.
      rewrite nth_error_map, Hu in Q. specialize (Q eq_refl). rewrite <- G2, <- Q, nth_error_sub.
      replace (addr_index ars r <? product ars) with true by lia. reflexivity.
  Qed.

  Lemma shaped_node : forall (t : htree E) ars u addr, shaped ars t -> descend t addr = Some u -> exists ars', shaped ars' u /\ ars = firstn (List.length addr) ars ++ ars'.
  Proof.
    induction t as [y|cs IH] using htree_ind'; intros ars u addr Hs Hd.
    - destruct addr; cbn in Hd; [|discriminate]. injection Hd as <-. exists ars. auto.
    - destruct addr as [|c r]; [cbn in Hd; injection Hd as <-; exists ars; auto|]. cbn [descend] in Hd.
      destruct (nth_error cs c) as [v|] eqn:Hv; [|discriminate]. destruct ars as [|a ars]; [destruct Hs|]. destruct Hs as [_ HF].
      rewrite Forall_forall in IH, HF. pose proof (nth_error_In _ _ Hv) as Hi.
      destruct (IH v Hi ars u r (HF v Hi) Hd) as (ars' & G1 & G2). exists ars'. split; [exact G1|]. cbn [List.length firstn app]. f_equal. exact G2.
  Qed.

  Lemma shaped_concat (b : nat) : forall k (es : list E), List.length es = b ^ k -> exists t, shaped (repeat b k) t /\ fringe t = es.
  Proof.
    induction k as [|k IH]; intros es Hl.
    - destruct es as [|x [|]]; cbn in Hl; try lia. exists (HL x). cbn. auto.
    - rewrite Nat.pow_succ_r' in Hl. pose proof (@split_parts unit (fun _ _ => tt) E es (b ^ k) b Hl) as HS. rewrite HS.
      assert (G : forall ks, (forall i, In i ks -> i < b) -> exists cs, List.length cs = List.length ks /\ Forall (shaped (repeat b k)) cs /\
        flat_map fringe cs = concat (map (fun i => sub es (i * b ^ k) (b ^ k)) ks)).
      { induction ks as [|i ks IHk]; intros Hin; [exists []; auto|].
        destruct IHk as (cs & G1 & G2 & G3); [intros; apply Hin; right; auto|].
        destruct (IH (sub es (i * b ^ k) (b ^ k))) as (t & T1 & T2).
        { apply sub_length_le. specialize (Hin i (or_introl eq_refl)). nia. }
        exists (t :: cs). cbn [List.length flat_map map concat]. rewrite G1, T2, G3. auto. }
      destruct (G (seq 0 b)) as (cs & G1 & G2 & G3); [intros i Hi; apply in_seq in Hi; lia|].
      exists (HN cs). cbn [repeat shaped fringe]. rewrite seq_length in G1. auto.
  Qed.

  Lemma in_fringe (t : htree E) addr x : descend t addr = Some (HL x) -> In x (fringe t).
  Proof.
    revert addr. induction t as [y|cs IH] using htree_ind'; intros [|c r] Hd; cbn [descend] in Hd; try discriminate.
    - injection Hd as <-. left. reflexivity.
    - destruct (nth_error cs c) as [u|] eqn:Hu; [|discriminate]. rewrite Forall_forall in IH. apply nth_error_In in Hu.
      cbn [fringe]. apply in_flat_map. eauto.
  Qed.
End Shape.

Section Any.
  Context {E : Type} (EO : ElementOps E) (EL : ElementLaws EO) (A : AlgOps E) (AL : AlgLaws A).
  Variable H : list byte -> E.
  Hypothesis HLf : forall x, h_leaf A x = H (leaf_bytes EO x).
  Hypothesis HNd : forall k nodes, h_node A k nodes = H (node_bytes EO nodes).
  Variable b : nat.
  Hypothesis Hb : arity b.
  Notation val := (value EO H).
  Notation tb := (tree_bytes EO H).
  Notation hn := (fun nodes => H (node_bytes EO nodes)).
  Notation nb := (node_bytes EO).

  Definition clash (ss ts : list (list byte)) : Prop := exists s s', In s ss /\ In s' ts /\ s <> s' /\ H s = H s'.

  Lemma clash_incl ss ss' ts ts' : incl ss ss' -> incl ts ts' -> clash ss ts -> clash ss' ts'.
  Proof. intros H1 H2 (s & s' & G1 & G2 & G3). exists s, s'. split; [|split]; auto. Qed.

  Lemma node_bytes_inj l l' : nb l = nb l' -> l = l'.
  Proof. unfold node_bytes. intros Q. injection Q as Q. apply (encode_inj EO EL). exact Q. Qed.
  Lemma leaf_bytes_inj x y : leaf_bytes EO x = leaf_bytes EO y -> x = y.
  Proof. unfold leaf_bytes. intros Q. injection Q as Q. apply (f_equal (e_from_slice EO)) in Q. rewrite !(el_round EO EL) in Q. congruence. Qed.

  Lemma in_tree u : In (match u with HL x => leaf_bytes EO x | HN cs => nb (map val cs) end) (tb u).
  Proof. destruct u; left; reflexivity. Qed.
  Lemma descend_incl : forall t addr u, descend t addr = Some u -> incl (tb u) (tb t).
  Proof.
    induction t as [y|cs IH] using htree_ind'; intros [|c r] u Hd; cbn [descend] in Hd; try discriminate.
    - injection Hd as <-. apply incl_refl.
    - injection Hd as <-. apply incl_refl.
    - destruct (nth_error cs c) as [v|] eqn:Hv; [|discriminate]. rewrite Forall_forall in IH. pose proof (nth_error_In _ _ Hv) as Hi.
      intros s Hs. cbn [tree_bytes]. right. apply in_flat_map. exists v. split; [exact Hi|]. exact (IH v Hi r u Hd s Hs).
  Qed.

  (* a node whose value is the hash of a list has this list as the values of its children *)
  Lemma open_node u nodes ss : H (nb nodes) = val u -> In (nb nodes) ss ->
    (exists cs, u = HN cs /\ nodes = map val cs) \/ clash ss (tb u).
  Proof.
    intros Hv Hi. destruct u as [x|cs].
    - right. exists (nb nodes), (leaf_bytes EO x). split; [exact Hi|]. split; [left; reflexivity|]. split; [discriminate|exact Hv].
    - destruct (list_dec EO EL nodes (map val cs)) as [Q|Q]; [left; eauto|right].
      exists (nb nodes), (nb (map val cs)). split; [exact Hi|]. split; [left; reflexivity|]. split; [|exact Hv].
      intros G. apply Q, node_bytes_inj, G.
  Qed.

  Lemma open_leaf u x ss : H (leaf_bytes EO x) = val u -> In (leaf_bytes EO x) ss -> u = HL x \/ clash ss (tb u).
  Proof.
    intros Hv Hi. destruct u as [y|cs].
    - destruct (el_dec EO EL x y) as [->|Q]; [left; reflexivity|right].
      exists (leaf_bytes EO x), (leaf_bytes EO y). split; [exact Hi|]. split; [left; reflexivity|]. split; [|exact Hv].
      intros G. apply Q, leaf_bytes_inj, G.
    - right. exists (leaf_bytes EO x), (nb (map val cs)). split; [exact Hi|]. split; [left; reflexivity|]. split; [discriminate|exact Hv].
  Qed.

  Lemma descend_app : forall (t : htree E) a a', descend t (a ++ a') = match descend t a with Some u => descend u a' | None => None end.
  Proof.
    intros t a. revert t. induction a as [|c a IH]; intros t a'; [reflexivity|]. cbn [app descend].
    destruct t as [x|cs]; [reflexivity|]. destruct (nth_error cs c) as [u|]; [apply IH|reflexivity].
  Qed.

  Lemma climb_open : forall n k x gs cs t,
    List.length gs = n -> List.length cs = n -> (forall g, In g gs -> List.length g = b - 1) -> Forall (fun c => c < b) cs ->
    climb (fun _ => hn) k x gs cs = val t ->
    (exists u, descend t (rev cs) = Some u /\ val u = x) \/
    clash (map nb (map (climb_nodes (fun _ => hn) k x gs cs) (seq 0 n))) (tb t).
  Proof.
    pose proof (arity_ge b Hb) as H2.
    induction n; intros k x gs cs t Hg Hc HG HC Hr; destruct gs as [|g gs]; destruct cs as [|c cs]; try discriminate.
    - left. exists t. split; [reflexivity|]. cbn [climb] in Hr. auto.
    - cbn [List.length] in Hg, Hc. pose proof (Forall_inv HC) as Hcb. pose proof (Forall_inv_tail HC) as HC'. cbn beta in Hcb. cbn [climb] in Hr.
      assert (Q : map (climb_nodes (fun _ => hn) k x (g :: gs) (c :: cs)) (seq 0 (S n)) =
        insert_at c x g :: map (climb_nodes (fun _ => hn) (S k) (hn (insert_at c x g)) gs cs) (seq 0 n)).
      { cbn [seq map climb_nodes]. f_equal. rewrite <- seq_shift, map_map. reflexivity. }
      rewrite Q. cbn [map].
      destruct (IHn (S k) _ gs cs t ltac:(lia) ltac:(lia) (fun q Hq => HG q (or_intror Hq)) HC' Hr) as [(u & U1 & U2)|HCl].
      2:{ right. eapply clash_incl; [| |exact HCl]; [intros s Hs; right; exact Hs|apply incl_refl]. }
      destruct (open_node u (insert_at c x g) (nb (insert_at c x g) :: map nb (map (climb_nodes (fun _ => hn) (S k) (hn (insert_at c x g)) gs cs) (seq 0 n))) (eq_sym U2) (or_introl eq_refl)) as [(us & -> & HI)|HCl].
      + left. pose proof (HG g (or_introl eq_refl)) as Hgl. pose proof (insert_nth_same c x g ltac:(lia)) as HN.
        rewrite HI, nth_error_map in HN. destruct (nth_error us c) as [v|] eqn:Hv; [|discriminate]. injection HN as HN.
        exists v. cbn [rev]. rewrite descend_app, U1. cbn [descend]. rewrite Hv. auto.
      + right. eapply clash_incl; [apply incl_refl| |exact HCl]. eapply descend_incl; eauto.
  Qed.

  Lemma levels_ok size : 2 <= size -> levels_at b size (levels b size).
  Proof.
    intros Hs. pose proof (arity_ge b Hb) as H2. unfold levels, levels_at.
    set (c := b - 1). assert (Hc : 0 < c) by (unfold c; lia). replace (b - 2) with (c - 1) by (unfold c; lia).
    pose proof (Nat.div_mod (size - 2 + (c - 1)) c ltac:(lia)) as HD. pose proof (Nat.mod_upper_bound (size - 2 + (c - 1)) c ltac:(lia)) as HM.
    set (q := (size - 2 + (c - 1)) / c) in *. split.
    - intros m Hm. assert (G : S m * c <= q * c) by (apply Nat.mul_le_mono_r; lia). cbn [Nat.mul] in G. lia.
    - lia.
  Qed.

  Lemma climb_ext (h h' : nat -> list E -> E) : (forall k l, h k l = h' k l) -> forall gs k x cs, climb h k x gs cs = climb h' k x gs cs.
  Proof. intros Q. induction gs as [|g gs IH]; intros k x [|c cs]; try reflexivity. cbn [climb]. rewrite Q. apply IH. Qed.

  Lemma Ok_inj (x y : E) : Ok x = Ok y -> x = y.
  Proof. congruence. Qed.
  Lemma last_root (p : proof E) x l : pf_lemma p = x :: l -> pf_root p = Ok (last (x :: l) x).
  Proof.
    intros Q. unfold pf_root. rewrite Q. pose proof (app_removelast_last x (l := x :: l) ltac:(discriminate)) as G.
    rewrite G at 1. rewrite rev_app_distr. reflexivity.
  Qed.

  Lemma validate_sub p sp : pf_sub p = Some sp -> validate EO A b p = Ok true ->
    0 < layer_arity p /\ validate EO A b sp = Ok true /\ validate_top EO A p (layer_arity p) = Ok true.
  Proof.
    destruct p as [s tn sn l pa]. cbn [pf_sub]. intros -> Hv. unfold layer_arity. cbn [pf_top_nodes pf_sub_nodes]. cbn [validate pf_top_nodes pf_sub_nodes pf_sub] in Hv.
    destruct (0 <? tn) eqn:G1.
    - destruct (validate EO A b sp) as [[|]|?|?|]; try discriminate. cbn [rbind negb] in Hv. split; [lia|auto].
    - destruct (0 <? sn) eqn:G2.
      + destruct (validate EO A b sp) as [[|]|?|?|]; try discriminate. cbn [rbind negb] in Hv. split; [lia|auto].
      + unfold validate_base in Hv. cbn [pf_sub_nodes pf_top_nodes pf_sub] in Hv. replace (sn =? 0) with true in Hv by lia. replace (tn =? 0) with true in Hv by lia. discriminate.
  Qed.

  Lemma validate_nosub p : pf_sub p = None -> validate EO A b p = Ok true -> pf_sub_nodes p = 0 /\ pf_top_nodes p = 0.
  Proof.
    destruct p as [s tn sn l pa]. cbn [pf_sub pf_sub_nodes pf_top_nodes]. intros -> Hv. cbn [validate pf_top_nodes pf_sub_nodes pf_sub] in Hv.
    destruct (0 <? tn) eqn:G1; [discriminate|]. destruct (0 <? sn) eqn:G2; [discriminate|]. lia.
  Qed.

  (* a validating proof of any shape speaks about the node at its address *)
  Lemma any_sound : forall p t, validate EO A b p = Ok true -> pf_root p = Ok (val t) ->
    (exists u, descend t (address b p) = Some u /\ pf_item (innermost p) = Ok (val u)) \/
    clash (proof_bytes EO b hn p) (tb t).
  Proof.
    induction p as [p Hs|p sp Hs IH] using proof_ind'; intros t Hv Hr.
    - destruct (validate_nosub p Hs Hv) as [Z1 Z2].
      destruct (validate_base_true EO EL A AL b (arity_ge b Hb) p (val t) Z1 Z2 Hv Hr) as (x & n & Hx & Hn & Hp & HG & HC & Hcl).
      destruct p as [s tn sn lem pa]. cbn [pf_sub pf_top_nodes pf_sub_nodes pf_lemma pf_path] in *. subst s tn sn.
      destruct lem as [|x0 lem]; [discriminate|]. cbn in Hx. injection Hx as ->.
      assert (2 <= List.length (x :: lem)).
      { cbn [validate pf_top_nodes pf_sub_nodes Nat.ltb Nat.leb] in Hv. unfold validate_base in Hv.
        cbn [pf_sub pf_top_nodes pf_sub_nodes Nat.eqb ensure rbind pf_lemma] in Hv.
        destruct (List.length (x :: lem) <? 2) eqn:G; [discriminate|lia]. }
      assert (n = levels b (List.length (x :: lem))) by (eapply levels_at_unique; [apply (arity_ge b Hb)|exact Hn|apply levels_ok; auto]). subst n.
      unfold proof_bytes. cbn [hashed pf_sub address innermost pf_lemma pf_path]. unfold base_lists. cbn [pf_lemma pf_path].
      rewrite (climb_ext (hv A b) (fun _ => hn)) in Hcl by (intros; apply HNd).
      destruct (climb_open (levels b (List.length (x :: lem))) 0 x (groups b (x :: lem) (levels b (List.length (x :: lem)))) (firstn (levels b (List.length (x :: lem))) pa) t) as [(u & U1 & U2)|HC']; auto.
      + unfold groups. rewrite map_length, seq_length. reflexivity.
      + rewrite firstn_length. lia.
      + left. exists u. split; [exact U1|]. unfold pf_item. cbn [pf_lemma]. congruence.
    - destruct (validate_sub p sp Hs Hv) as (Ha & Hvs & Hvt).
      destruct (validate_top_true EO EL A AL p (layer_arity p) (val t) Ha Hvt Hr) as (k & sp' & rk & K1 & K2 & K3 & K4 & K5 & K6 & K7).
      rewrite Hs in K3. injection K3 as <-. rewrite HNd in K7.
      destruct p as [s tn sn lem pa]. cbn [pf_sub] in Hs. subst s. cbn [pf_path] in K1.
      destruct pa as [|k' pa]; [discriminate|]. cbn in K1. injection K1 as ->.
      unfold layer_nodes in *. cbn [pf_lemma] in *.
      destruct (pf_lemma sp) as [|x l] eqn:Hl; [unfold pf_root in K4; rewrite Hl in K4; discriminate|].
      assert (HR : rk = last (x :: l) x) by (apply Ok_inj; rewrite <- K4; apply last_root; exact Hl).
      set (P := mk_proof (Some sp) tn sn lem (k :: pa)) in *.
      assert (QB : proof_bytes EO b hn P = nb (insert_at k rk (firstn (layer_arity P - 1) lem)) :: proof_bytes EO b hn sp).
      { unfold proof_bytes, P. cbn [hashed pf_sub pf_lemma pf_path hd]. rewrite Hl. cbn [map]. rewrite <- HR. reflexivity. }
      rewrite QB. change (address b P) with (k :: address b sp). change (innermost P) with (innermost sp).
      destruct (open_node t _ (nb (insert_at k rk (firstn (layer_arity P - 1) lem)) :: proof_bytes EO b hn sp) K7 (or_introl eq_refl)) as [(cs & -> & HI)|HCl]; [|right; exact HCl].
      rewrite HI, nth_error_map in K6. destruct (nth_error cs k) as [v|] eqn:Hk; [|discriminate]. injection K6 as K6.
      cbn [descend]. rewrite Hk. rewrite <- K6 in K4.
      destruct (IH v Hvs K4) as [G|G]; [left; exact G|right].
      eapply clash_incl; [| |exact G]; [intros z Hz; right; exact Hz|].
      apply (descend_incl (HN cs) [k]). cbn [descend]. rewrite Hk. reflexivity.
  Qed.

  Lemma with_data_inv p y : validate_with_data EO A b p y = Ok true ->
    validate EO A b p = Ok true /\ pf_item p = Ok (H (leaf_bytes EO (fst (a_hash A (hash_into A (a_default A) y))))).
  Proof.
    unfold validate_with_data. destruct (a_hash A (hash_into A (a_default A) y)) as [item a]. rewrite AL. cbn [fst]. rewrite <- HLf. unfold h_leaf.
    destruct (a_leaf A (a_default A) item) as [lh a2]. cbn [fst]. destruct (pf_item p) as [it|?|?|]; try discriminate. cbn [rbind].
    destruct (e_eqb EO lh it) eqn:G; [|discriminate]. apply (eqb_eq EO EL) in G. subst. auto.
  Qed.

  (* the first element of an outer layer is a child of the root *)
  Lemma outer_item p sp t x : pf_sub p = Some sp -> validate EO A b p = Ok true -> pf_root p = Ok (val t) -> pf_item p = Ok x ->
    (exists cs, t = HN cs /\ (List.length cs = 1 \/ exists c u, nth_error cs c = Some u /\ val u = x)) \/ clash (proof_bytes EO b hn p) (tb t).
  Proof.
    intros Hs Hv Hr Hx. destruct (validate_sub p sp Hs Hv) as (Ha & Hvs & Hvt).
    destruct (validate_top_true EO EL A AL p (layer_arity p) (val t) Ha Hvt Hr) as (k & sp' & rk & K1 & K2 & K3 & K4 & K5 & K6 & K7).
    rewrite Hs in K3. injection K3 as <-. rewrite HNd in K7.
    assert (QI : In (nb (layer_nodes p (layer_arity p) k rk)) (proof_bytes EO b hn p)).
    { destruct p as [s tn sn lem pa]. cbn [pf_sub] in Hs. subst s. unfold proof_bytes. cbn [hashed pf_sub].
      destruct (pf_lemma sp) as [|z l] eqn:Hl; [unfold pf_root in K4; rewrite Hl in K4; discriminate|].
      assert (HR : rk = last (z :: l) z) by (apply Ok_inj; rewrite <- K4; apply last_root; exact Hl). cbn [pf_path pf_lemma] in *.
      destruct pa as [|k' pa]; [discriminate|]. cbn in K1. injection K1 as ->. cbn [map hd]. left. unfold layer_nodes. cbn [pf_lemma]. rewrite <- HR. reflexivity. }
    destruct (open_node t _ _ K7 QI) as [(cs & -> & HI)|HCl]; [|right; exact HCl].
    left. exists cs. split; [reflexivity|]. pose proof (f_equal (@List.length E) HI) as HLn. rewrite K5, map_length in HLn.
    destruct (le_lt_dec (layer_arity p) 1) as [L|L]; [left; lia|right].
    unfold pf_item in Hx. destruct (pf_lemma p) as [|z l] eqn:Hl; [discriminate|]. injection Hx as ->.
    unfold layer_nodes in HI. rewrite Hl in HI. destruct (layer_arity p - 1) as [|m] eqn:Hm; [lia|]. cbn [firstn] in HI.
    assert (HIn : exists c, nth_error (insert_at k rk (x :: firstn m l)) c = Some x).
    { unfold insert_at. destruct k as [|k]; [exists 1; reflexivity|exists 0; reflexivity]. }
    destruct HIn as [c Hc]. rewrite HI, nth_error_map in Hc. destruct (nth_error cs c) as [u|] eqn:Hu; [|discriminate]. injection Hc as Hc. eauto.
  Qed.

  (* the value of a full tree *)
  Lemma value_MRoot : forall d t, shaped (repeat b d) t -> MRoot (h_node A) b d (map (h_leaf A) (fringe t)) (val t).
  Proof.
    induction d as [|d IH]; intros [x|cs] Hs; cbn [repeat shaped] in Hs; try (destruct Hs; fail).
    - cbn [fringe map value]. rewrite <- HLf. constructor.
    - destruct Hs as [Hl HF]. cbn [fringe value]. rewrite <- (HNd d). rewrite flat_map_concat_map, concat_map, map_map.
      constructor; [rewrite map_length; exact Hl|]. clear Hl. induction HF as [|c cs Hc HF IHF]; cbn [map]; constructor; auto.
  Qed.

  Lemma MRoot_tree d es r : MRoot (h_node A) b d (map (h_leaf A) es) r ->
    exists t, shaped (repeat b d) t /\ fringe t = es /\ val t = r.
  Proof.
    intros HM. pose proof (MRoot_length _ _ _ _ _ HM) as Hl. rewrite map_length in Hl.
    destruct (shaped_concat b d es Hl) as (t & T1 & T2). exists t. split; [exact T1|]. split; [exact T2|].
    eapply MRoot_fun; [|exact HM]. rewrite <- T2. apply value_MRoot. exact T1.
  Qed.
End Any.
