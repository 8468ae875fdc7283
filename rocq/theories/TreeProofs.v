(** Proofs about the attribute tree. *)
From Verif Require Import Py PathModel TreeModel TreeSpec.
From Coq Require Import DecimalString.
From Coq Require DecimalNat.

Lemma txt_inj a b : txt a = txt b -> a = b.
Proof.
  revert b. induction a as [|c a IH]; intros [|e b]; cbn; try discriminate; [reflexivity|].
  intros E. injection E as E1 E2. f_equal; [|now apply IH].
  rewrite <- (Ascii.ascii_N_embedding c), <- (Ascii.ascii_N_embedding e). congruence.
Qed.
Lemma id_text_inj a b : id_text a = id_text b -> a = b.
Proof.
  unfold id_text. intros E. apply txt_inj in E.
  assert (X : Nat.to_uint a = Nat.to_uint b). { pose proof (NilEmpty.usu (Nat.to_uint a)) as A. rewrite E, NilEmpty.usu in A. congruence. }
  now apply DecimalNat.Unsigned.to_uint_inj in X.
Qed.
Lemma id_text_digits n : all_digits (id_text n).
Proof.
  unfold id_text. generalize (Nat.to_uint n). induction u; cbn; intros c; [contradiction|..];
    (intros [<-|H]; [reflexivity|now apply IHu]).
Qed.
Lemma id_text_nonempty n : exists c t, id_text n = c :: t /\ is_digit c = true.
Proof.
  pose proof (id_text_digits n) as D. destruct (id_text n) as [|c t] eqn:E; [|exists c, t; split; [reflexivity|apply D; now left] ].
  exfalso. unfold id_text in E. destruct (Nat.to_uint n) eqn:U; try discriminate.
  assert (X : Nat.of_uint (Nat.to_uint n) = 0) by (now rewrite U). rewrite DecimalNat.Unsigned.of_to in X. subst n. discriminate.
Qed.
Lemma node_key_id slug p level : keeps_digits slug -> getkey p level = id_text (p_id p) -> node_key slug p level = 110%N :: id_text (p_id p).
Proof.
  intros K E. unfold node_key. rewrite E, K by apply id_text_digits. destruct (id_text_nonempty (p_id p)) as (c & t & -> & ->). reflexivity.
Qed.
Lemma getkey_deep p level : 3 <= level -> getkey p level = id_text (p_id p).
Proof.
  intros L. do 3 (destruct level as [|level]; [lia|]). unfold getkey. destruct (p_kind p) as [prefix rep|name rep|]; [|reflexivity|reflexivity].
  destruct (List.length prefix =? 1); cbn [andb]; [reflexivity|]. destruct (List.length prefix =? 0); [|reflexivity].
  rewrite Nat.add_comm. reflexivity.
Qed.

(** ** Collecting *)
Section S.
Variable slug : text -> text.
Notation at_key level k := (fun p => text_eqb (node_key slug p level) k).
Definition entry (p : proc) : text * proc := (id_text (p_id p), p).
Definition collected (level : nat) (done : list proc) (acc : dict text (dict text proc)) : Prop :=
  NoDup (dkeys acc) /\
  forall k, dget acc k = match filter (at_key level k) done with [] => None | l => Some (map entry l) end.
Lemma dget_entries l x : ~ In (p_id x) (map p_id l) -> dget (map entry l) (id_text (p_id x)) = None.
Proof.
  intros N. apply dget_None. intros I. apply N. unfold dkeys in I. rewrite map_map in I. apply in_map_iff in I as (y & E & I).
  cbn in E. apply id_text_inj in E. rewrite <- E. now apply in_map.
Qed.
Lemma add_collected level done acc p : collected level done acc -> ~ In (p_id p) (map p_id done) -> collected level (done ++ [p]) (add_proc slug level acc p).
Proof.
  intros [N G] F. unfold add_proc. set (key := node_key slug p level).
  assert (Fk : ~ In (p_id p) (map p_id (filter (at_key level key) done))).
  { intros I. apply F. apply in_map_iff in I as (y & E & I). apply filter_In in I as [I _]. rewrite <- E. now apply in_map. }
  assert (NEW : dget (if dmem acc key then acc else dset acc key []) key = Some (map entry (filter (at_key level key) done))).
  { unfold dmem. pose proof (G key) as Gk. destruct (dget acc key) as [inner|] eqn:E.
    - rewrite E. rewrite Gk. destruct (filter (at_key level key) done); [discriminate|reflexivity].
    - rewrite dget_dset, keqb_refl. destruct (filter (at_key level key) done); [reflexivity|discriminate]. }
  rewrite NEW. rewrite (dset_fresh _ _ _ (dget_entries _ _ Fk)).
  split.
  - apply dset_NoDup. destruct (dmem acc key); [exact N|now apply dset_NoDup].
  - intros k. rewrite dget_dset. rewrite filter_app. cbn [filter]. fold key.
    destruct (keqb_spec k key) as [->|Nk].
    + cbn [keqb Key_text] in *. destruct (text_eqb_spec key key); [|congruence].
      assert (Q : map entry (filter (at_key level key) done) ++ [(getkey_none p, p)] = map entry (filter (at_key level key) done ++ [p])) by (rewrite map_app; reflexivity).
      unfold getkey_none in Q. rewrite Q. destruct (filter (at_key level key) done); reflexivity.
    + destruct (text_eqb_spec key k); [congruence|]. rewrite app_nil_r.
      destruct (dmem acc key) eqn:M; [apply G|]. rewrite dget_dset. destruct (keqb_spec k key); [congruence|]. apply G.
Qed.
Lemma collect_ok level ps : distinct_ids ps -> collected level ps (collect slug level ps).
Proof.
  unfold collect. intros D.
  assert (H : forall todo done acc, collected level done acc -> distinct_ids (done ++ todo) -> collected level (done ++ todo) (fold_left (add_proc slug level) todo acc)).
  { induction todo as [|p todo IH]; intros done acc C N; cbn [fold_left]; [now rewrite app_nil_r|].
    replace (done ++ p :: todo) with ((done ++ [p]) ++ todo) in * by (now rewrite <- app_assoc).
    apply IH; [|exact N]. apply add_collected; [exact C|]. unfold distinct_ids in N. rewrite !map_app in N. cbn in N. rewrite <- app_assoc in N. cbn in N.
    apply NoDup_remove_2 in N. intros I. apply N. apply in_or_app. now left. }
  apply (H ps [] []); [|exact D]. split; [constructor|reflexivity].
Qed.
Lemma filter_distinct (f : proc -> bool) ps : distinct_ids ps -> distinct_ids (filter f ps).
Proof.
  unfold distinct_ids. induction ps as [|p ps IH]; cbn; [auto|]. intros N. inversion N as [|? ? N1 N2]; subst. destruct (f p); cbn; [|auto].
  constructor; [|auto]. intros I. apply N1. apply in_map_iff in I as (y & E & I). apply filter_In in I as [I _]. rewrite <- E. now apply in_map.
Qed.

(** ** Building *)
Definition subtree (bld : nat -> list proc -> option tree) (level : nat) (l : list proc) : option tree :=
  match l with [p] => Some (Leaf p) | ps => bld (S level) ps end.
Lemma build_children_cons bld level k v rest : build_children bld level ((k, v) :: rest) =
  match subtree bld level (dvals v) with
  | None => None
  | Some t => match build_children bld level rest with None => None | Some d => Some ((k, t) :: d) end
  end.
Proof. cbn [build_children]. unfold subtree. destruct (dvals v) as [|p [|q l] ]; reflexivity. Qed.
Lemma build_children_get bld level procs : NoDup (dkeys procs) ->
  match build_children bld level procs with
  | Some cs => forall k, match dget procs k, dget cs k with
                         | Some inner, Some t => subtree bld level (dvals inner) = Some t
                         | None, None => True
                         | _, _ => False
                         end
  | None => exists k inner, dget procs k = Some inner /\ subtree bld level (dvals inner) = None
  end.
Proof.
  induction procs as [|[k0 inner] procs IH]; intros N; [cbn; now intros k|].
  cbn [dkeys map fst] in N. inversion N as [|? ? N1 N2]; subst. specialize (IH N2).
  rewrite build_children_cons.
  destruct (subtree bld level (dvals inner)) as [t|] eqn:T.
  - destruct (build_children bld level procs) as [cs|].
    + intros k. cbn [dget]. destruct (keqb k k0); [exact T|apply IH].
    + destruct IH as (k & i & A & B). exists k, i. split; [|exact B]. cbn [dget]. destruct (keqb_spec k k0) as [->|]; [|exact A].
      exfalso. apply N1. apply dget_mem. eauto.
  - exists k0, inner. cbn [dget]. now rewrite keqb_refl.
Qed.
Lemma dvals_entries l : dvals (map entry l) = l.
Proof. unfold dvals. rewrite map_map. apply map_id. Qed.

Lemma build_S d level ps : build slug (S d) level ps = match build_children (build slug d) level (collect slug level ps) with None => None | Some cs => Some (Group cs) end.
Proof. reflexivity. Qed.
(** The children of a group, in terms of the processes. *)
Lemma build_get d level ps t : distinct_ids ps -> build slug (S d) level ps = Some t ->
  exists cs, t = Group cs /\ forall k,
    match filter (at_key level k) ps, dget cs k with
    | [], None => True
    | [p], Some t' => t' = Leaf p
    | p :: q :: l, Some t' => build slug d (S level) (p :: q :: l) = Some t'
    | _, _ => False
    end.
Proof.
  intros D B. rewrite build_S in B. destruct (collect_ok level ps D) as [N G].
  pose proof (build_children_get (build slug d) level _ N) as X. destruct (build_children (build slug d) level (collect slug level ps)) as [cs|]; [|discriminate].
  injection B as <-. exists cs. split; [reflexivity|]. intros k. specialize (X k). rewrite (G k) in X.
  destruct (filter (at_key level k) ps) as [|p [|q l] ]; destruct (dget cs k) as [t'|]; try contradiction; auto.
  - rewrite dvals_entries in X. cbn in X. congruence.
  - rewrite dvals_entries in X. exact X.
Qed.
Lemma terminates d : forall level ps, keeps_digits slug -> distinct_ids ps -> 4 <= level + S d -> build slug (S d) level ps <> None.
Proof.
  induction d as [|d IH]; intros level ps K D L E; rewrite build_S in E; destruct (collect_ok level ps D) as [N G].
  - pose proof (build_children_get (build slug 0) level _ N) as X. destruct (build_children (build slug 0) level (collect slug level ps)) as [cs|]; [discriminate|].
    destruct X as (k & inner & A & B). rewrite (G k) in A.
    destruct (filter (at_key level k) ps) as [|p [|q l] ] eqn:F; [discriminate|injection A as <-; discriminate B|].
    assert (P : In p (filter (at_key level k) ps)) by (rewrite F; now left). assert (Q : In q (filter (at_key level k) ps)) by (rewrite F; right; now left).
    apply filter_In in P as [P P'], Q as [Q Q']. cbn beta in *.
    destruct (text_eqb_spec (node_key slug p level) k) as [E1|]; [|discriminate]. destruct (text_eqb_spec (node_key slug q level) k) as [E2|]; [|discriminate].
    rewrite (node_key_id slug p level K) in E1 by (apply getkey_deep; lia). rewrite (node_key_id slug q level K) in E2 by (apply getkey_deep; lia).
    assert (I : p_id p = p_id q) by (apply id_text_inj; congruence).
    pose proof (filter_distinct (at_key level k) ps D) as DF. unfold distinct_ids in DF. rewrite F in DF. cbn in DF. inversion DF as [|? ? N1 _]; subst. apply N1. now left.
  - pose proof (build_children_get (build slug (S d)) level _ N) as X. destruct (build_children (build slug (S d)) level (collect slug level ps)) as [cs|]; [discriminate|].
    destruct X as (k & inner & A & B). rewrite (G k) in A.
    destruct (filter (at_key level k) ps) as [|p [|q l] ] eqn:F; [discriminate|injection A as <-; discriminate B|].
    injection A as <-. change (entry p :: entry q :: map entry l) with (map entry (p :: q :: l)) in B. rewrite dvals_entries in B. unfold subtree in B.
    apply (IH (S level) (p :: q :: l)); auto; [|lia]. rewrite <- F. now apply filter_distinct.
Qed.

Lemma key_In level k p ps : In p (filter (at_key level k) ps) <-> In p ps /\ node_key slug p level = k.
Proof.
  rewrite filter_In. split; intros [A B]; (split; [exact A|]).
  - destruct (text_eqb_spec (node_key slug p level) k); congruence.
  - destruct (text_eqb_spec (node_key slug p level) k); congruence.
Qed.
Lemma tree_members d : forall level ps t, distinct_ids ps -> build slug d level ps = Some t ->
  forall p, (In p ps <-> exists path, found_at t path p) /\ (forall a b, found_at t a p -> found_at t b p -> a = b).
Proof.
  induction d as [|d IH]; intros level ps t D B p; [discriminate|].
  destruct (build_get d level ps t D B) as (cs & -> & G). unfold found_at. split; [split|].
  - intros I. specialize (G (node_key slug p level)). pose proof (proj2 (key_In level (node_key slug p level) p ps) (conj I eq_refl)) as Fi.
    destruct (filter (at_key level (node_key slug p level)) ps) as [|x [|y l] ] eqn:F; [contradiction| |].
    + destruct (dget cs (node_key slug p level)) as [t'|] eqn:E; [|contradiction]. destruct Fi as [->|[] ]. exists [node_key slug p level]. cbn. now rewrite E, G.
    + destruct (dget cs (node_key slug p level)) as [t'|] eqn:E; [|contradiction].
      assert (D' : distinct_ids (x :: y :: l)) by (rewrite <- F; now apply filter_distinct).
      destruct (IH _ _ _ D' G p) as [ [Y _] _]. destruct (Y Fi) as [path P]. exists (node_key slug p level :: path). cbn. now rewrite E.
  - intros [ [|k path] P]; [discriminate|]. cbn in P. specialize (G k). destruct (dget cs k) as [t'|]; [|discriminate].
    destruct (filter (at_key level k) ps) as [|x [|y l] ] eqn:F; [contradiction| |].
    + subst t'. destruct path as [|? ?]; [|discriminate]. cbn in P. injection P as <-.
      assert (I : In x (filter (at_key level k) ps)) by (rewrite F; now left). now apply key_In in I.
    + assert (D' : distinct_ids (x :: y :: l)) by (rewrite <- F; now apply filter_distinct).
      destruct (IH _ _ _ D' G p) as [ [_ Y] _]. assert (I : In p (filter (at_key level k) ps)) by (rewrite F; apply Y; now exists path). now apply key_In in I.
  - assert (KEY : forall k path, follow (Group cs) (k :: path) = Some (Leaf p) -> k = node_key slug p level).
    { intros k path P. cbn in P. specialize (G k). destruct (dget cs k) as [t'|]; [|discriminate].
      destruct (filter (at_key level k) ps) as [|x [|y l] ] eqn:F; [contradiction| |].
      - subst t'. destruct path as [|? ?]; [|discriminate]. cbn in P. injection P as <-.
        assert (I : In x (filter (at_key level k) ps)) by (rewrite F; now left). now apply key_In in I.
      - assert (D' : distinct_ids (x :: y :: l)) by (rewrite <- F; now apply filter_distinct).
        destruct (IH _ _ _ D' G p) as [ [_ Y] _]. assert (I : In p (filter (at_key level k) ps)) by (rewrite F; apply Y; now exists path). now apply key_In in I. }
    intros [|k a] [|k' b] A A'; try discriminate. pose proof (KEY _ _ A) as E1. pose proof (KEY _ _ A') as E2. subst k k'. f_equal.
    cbn in A, A'. specialize (G (node_key slug p level)). destruct (dget cs (node_key slug p level)) as [t'|]; [|discriminate].
    destruct (filter (at_key level (node_key slug p level)) ps) as [|x [|y l] ] eqn:F; [contradiction| |].
    + subst t'. destruct a, b; try discriminate. reflexivity.
    + assert (D' : distinct_ids (x :: y :: l)) by (rewrite <- F; now apply filter_distinct).
      destruct (IH _ _ _ D' G p) as [_ Y]. now apply Y.
Qed.
Lemma filter_nil (f : proc -> bool) l : (forall x, In x l -> f x = false) -> filter f l = [].
Proof. induction l as [|x l IH]; intros H; cbn; [reflexivity|]. rewrite (H x (or_introl eq_refl)). apply IH. intros y Y. apply H. now right. Qed.
Lemma filter_unique (f : proc -> bool) ps p : distinct_ids ps -> In p ps -> f p = true -> (forall q, In q ps -> f q = true -> q = p) -> filter f ps = [p].
Proof.
  unfold distinct_ids. induction ps as [|x ps IH]; intros D I F U; [contradiction|]. cbn in D. inversion D as [|? ? D1 D2]; subst. cbn.
  destruct (f x) eqn:Fx.
  - assert (x = p) by (apply U; [now left|exact Fx]). subst x. f_equal. apply filter_nil. intros y Y. destruct (f y) eqn:Fy; [|reflexivity].
    exfalso. apply D1. rewrite <- (U y (or_intror Y) Fy). now apply in_map.
  - destruct I as [->|I]; [congruence|]. apply IH; auto. intros q Q. apply U. now right.
Qed.
Lemma unique_direct d ps t p : distinct_ids ps -> build slug (S d) 0 ps = Some t -> In p ps ->
  (forall q, In q ps -> node_key slug q 0 = node_key slug p 0 -> q = p) -> found_at t [node_key slug p 0] p.
Proof.
  intros D B I U. destruct (build_get d 0 ps t D B) as (cs & -> & G). specialize (G (node_key slug p 0)).
  rewrite (filter_unique _ ps p D I) in G.
  - unfold found_at. cbn. destruct (dget cs (node_key slug p 0)) as [t'|]; [now subst|contradiction].
  - destruct (text_eqb_spec (node_key slug p 0) (node_key slug p 0)); congruence.
  - intros q Q E. apply U; [exact Q|]. destruct (text_eqb_spec (node_key slug q 0) (node_key slug p 0)); congruence.
Qed.
(** Attribute access. *)
Lemma attr_direct t p k : found_at t [k] p -> existsb (text_eqb k) pipeline_attrs = false -> existsb (text_eqb k) group_attrs = false ->
  pipeline_attr t k = ATree (Leaf p).
Proof.
  unfold found_at, pipeline_attr, group_attr. intros F A B. rewrite A. destruct t as [q|cs]; [discriminate|]. rewrite B. cbn in F.
  destruct (dget cs k) as [t'|]; [|discriminate]. congruence.
Qed.
End S.
