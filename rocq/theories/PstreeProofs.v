From Verif Require Import Py PathModel TreeModel TreeSpec TreeProofs PstreeModel PstreeSpec.

Section Gen.
  Context {A : Type} (slug : text -> text) (key : A -> nat -> res text) (ident : A -> text).
  Notation gk := (gkey slug key).
  Notation bld := (gbuild slug key ident).
  Notation at_key level k := (fun a => match gk a level with Ok k' => text_eqb k' k | Err _ => false end).
  Definition gentry (a : A) : text * A := (ident a, a).
  Definition distinct (l : list A) : Prop := NoDup (map ident l).
  Definition keyed (level : nat) (l : list A) : Prop := forall a, In a l -> exists k, gk a level = Ok k.
  Definition gcollected (level : nat) (done : list A) (acc : dict text (dict text A)) : Prop :=
    NoDup (dkeys acc) /\
    forall k, dget acc k = match filter (at_key level k) done with [] => None | l => Some (map gentry l) end.
  Lemma gentries l x : ~ In (ident x) (map ident l) -> dget (map gentry l) (ident x) = None.
  Proof.
    intros N. apply dget_None. intros I. apply N. unfold dkeys in I. rewrite map_map in I. exact I.
  Qed.
  Lemma gadd_ok level done acc a k : gcollected level done acc -> ~ In (ident a) (map ident done) -> gk a level = Ok k ->
    exists acc', gadd slug key ident level acc a = Ok acc' /\ gcollected level (done ++ [a]) acc'.
  Proof.
    intros [N G] F K. unfold gadd. rewrite K. cbn [bind_res].
    assert (Fk : ~ In (ident a) (map ident (filter (at_key level k) done))).
    { intros I. apply F. apply in_map_iff in I as (y & E & I). apply filter_In in I as [I _]. rewrite <- E. now apply in_map. }
    assert (NEW : dget (if dmem acc k then acc else dset acc k []) k = Some (map gentry (filter (at_key level k) done))).
    { unfold dmem. pose proof (G k) as Gk. destruct (dget acc k) as [inner|] eqn:E.
      - rewrite E. rewrite Gk. destruct (filter (at_key level k) done); [discriminate|reflexivity].
      - rewrite dget_dset, keqb_refl. destruct (filter (at_key level k) done); [reflexivity|discriminate]. }
    rewrite NEW. rewrite (dset_fresh _ _ _ (gentries _ _ Fk)). eexists. split; [reflexivity|]. split.
    - apply dset_NoDup. destruct (dmem acc k); [exact N|now apply dset_NoDup].
    - intros k'. rewrite dget_dset. rewrite filter_app. cbn [filter]. rewrite K.
      destruct (keqb_spec k' k) as [->|Nk].
      + destruct (text_eqb_spec k k); [|congruence].
        assert (Q : map gentry (filter (at_key level k) done) ++ [(ident a, a)] = map gentry (filter (at_key level k) done ++ [a])) by (rewrite map_app; reflexivity).
        rewrite Q. destruct (filter (at_key level k) done); reflexivity.
      + destruct (text_eqb_spec k k'); [congruence|]. rewrite app_nil_r.
        destruct (dmem acc k) eqn:M; [apply G|]. rewrite dget_dset. destruct (keqb_spec k' k); [congruence|]. apply G.
  Qed.
  Lemma gcollect_ok level l : distinct l -> keyed level l -> exists acc, gcollect slug key ident level [] l = Ok acc /\ gcollected level l acc.
  Proof.
    intros D Ky.
    assert (H : forall todo done acc, gcollected level done acc -> distinct (done ++ todo) -> keyed level todo ->
      exists acc', gcollect slug key ident level acc todo = Ok acc' /\ gcollected level (done ++ todo) acc').
    { induction todo as [|a todo IH]; intros done acc C N K; cbn [gcollect]; [exists acc; now rewrite app_nil_r|].
      destruct (K a (or_introl eq_refl)) as [k Ek].
      assert (Na : ~ In (ident a) (map ident done)).
      { unfold distinct in N. rewrite map_app in N. cbn in N. apply NoDup_remove_2 in N. intros I. apply N. apply in_or_app. now left. }
      destruct (gadd_ok level done acc a k C Na Ek) as (acc1 & E1 & C1). rewrite E1. cbn [bind_res].
      replace (done ++ a :: todo) with ((done ++ [a]) ++ todo) in * by (now rewrite <- app_assoc).
      apply IH; [exact C1|exact N|]. intros b I. apply K. now right. }
    apply (H l [] []); [split; [constructor|reflexivity]|exact D|exact Ky].
  Qed.
  Lemma gcollect_keyed level l : forall acc acc', gcollect slug key ident level acc l = Ok acc' -> keyed level l.
  Proof.
    induction l as [|a l IH]; intros acc acc' E b I; [destruct I|]. cbn in E. destruct (gadd slug key ident level acc a) as [acc1|] eqn:E1; [|discriminate]. cbn in E.
    destruct I as [<-|I]; [|exact (IH _ _ E b I)]. unfold gadd in E1. destruct (gk a level) as [k|]; [now exists k|discriminate].
  Qed.
  Lemma gfilter_distinct (f : A -> bool) l : distinct l -> distinct (filter f l).
  Proof.
    unfold distinct. induction l as [|p ps IH]; cbn; [auto|]. intros N. inversion N as [|? ? N1 N2]; subst. destruct (f p); cbn; [|auto].
    constructor; [|auto]. intros I. apply N1. apply in_map_iff in I as (y & E & I). apply filter_In in I as [I _]. rewrite <- E. now apply in_map.
  Qed.
  Definition gsub (b : list A -> res (gtree A)) (l : list A) : res (gtree A) := match l with [a] => Ok (GLeaf a) | l => b l end.
  Lemma gchildren_cons b k v rest : gchildren b ((k, v) :: rest) = let* t := gsub b (dvals v) in let* d := gchildren b rest in Ok ((k, t) :: d).
  Proof. cbn [gchildren]. unfold gsub. destruct (dvals v) as [|p [|q l] ]; reflexivity. Qed.
  Lemma gchildren_get b procs : NoDup (dkeys procs) ->
    match gchildren b procs with
    | Ok cs => NoDup (dkeys cs) /\ forall k, match dget procs k, dget cs k with
                           | Some inner, Some t => gsub b (dvals inner) = Ok t
                           | None, None => True
                           | _, _ => False
                           end
    | Err e => exists k inner, dget procs k = Some inner /\ gsub b (dvals inner) = Err e
    end.
  Proof.
    induction procs as [|[k0 inner] procs IH]; intros N; [cbn; split; [constructor|now intros k]|].
    cbn [dkeys map fst] in N. inversion N as [|? ? N1 N2]; subst. specialize (IH N2).
    rewrite gchildren_cons.
    destruct (gsub b (dvals inner)) as [t|e] eqn:T; cbn [bind_res].
    - destruct (gchildren b procs) as [cs|e]; cbn [bind_res].
      + destruct IH as [Nc IH]. split.
        * cbn. constructor; [|exact Nc]. intros I. apply N1. apply dget_mem in I as [t' I]. specialize (IH k0). rewrite I in IH.
          apply dget_mem. destruct (dget procs k0) as [i|]; [now exists i|contradiction].
        * intros k. cbn [dget]. destruct (keqb k k0); [exact T|apply IH].
      + destruct IH as (k & i & Ga & B). exists k, i. split; [|exact B]. cbn [dget]. destruct (keqb_spec k k0) as [->|]; [|exact Ga].
        exfalso. apply N1. apply dget_mem. eauto.
    - exists k0, inner. cbn [dget]. now rewrite keqb_refl.
  Qed.
  Lemma gdvals l : dvals (map gentry l) = l.
  Proof. unfold dvals. rewrite map_map. apply map_id. Qed.
  Lemma gbuild_S d level l : bld (S d) level l = let* procs := gcollect slug key ident level [] l in let* cs := gchildren (bld d (S level)) procs in Ok (GGroup cs).
  Proof. reflexivity. Qed.
  Lemma gbuild_get d level l t : distinct l -> bld (S d) level l = Ok t ->
    exists cs, t = GGroup cs /\ keyed level l /\ NoDup (dkeys cs) /\ forall k,
      match filter (at_key level k) l, dget cs k with
      | [], None => True
      | [a], Some t' => t' = GLeaf a
      | a :: b :: r, Some t' => bld d (S level) (a :: b :: r) = Ok t'
      | _, _ => False
      end.
  Proof.
    intros D B. rewrite gbuild_S in B. destruct (gcollect slug key ident level [] l) as [procs|] eqn:C; [|discriminate]. cbn [bind_res] in B.
    pose proof (gcollect_keyed _ _ _ _ C) as Ky. destruct (gcollect_ok level l D Ky) as (acc & E & N & G). rewrite C in E. injection E as <-.
    pose proof (gchildren_get (bld d (S level)) _ N) as X. destruct (gchildren (bld d (S level)) procs) as [cs|]; [|discriminate]. cbn [bind_res] in B.
    destruct X as [Nc X]. injection B as <-. exists cs. split; [reflexivity|]. split; [exact Ky|]. split; [exact Nc|]. intros k. specialize (X k). rewrite (G k) in X.
    destruct (filter (at_key level k) l) as [|a [|b r] ]; destruct (dget cs k) as [t'|]; try contradiction; auto.
    - rewrite gdvals in X. cbn in X. congruence.
    - rewrite gdvals in X. exact X.
  Qed.
  Lemma gkey_In level k a l : In a (filter (at_key level k) l) <-> In a l /\ gk a level = Ok k.
  Proof.
    rewrite filter_In. split; intros [I E]; (split; [exact I|]).
    - destruct (gk a level) as [k'|]; [|discriminate]. destruct (text_eqb_spec k' k); congruence.
    - rewrite E. destruct (text_eqb_spec k k); congruence.
  Qed.
  (** Keys up to level n, the last of which tells the children apart: the tree exists. *)
  Lemma gterminates n (last : forall a b, gk a n = gk b n -> ident a = ident b) : forall d level l, distinct l -> (forall lv, lv <= n -> keyed lv l) -> level <= n -> n < level + d ->
    exists t, bld d level l = Ok t.
  Proof.
    induction d as [|d IH]; intros level l D Ky Le Lt; [lia|]. rewrite gbuild_S.
    destruct (gcollect_ok level l D (Ky level Le)) as (acc & -> & N & G). cbn [bind_res].
    pose proof (gchildren_get (bld d (S level)) _ N) as X. destruct (gchildren (bld d (S level)) acc) as [cs|e]; cbn [bind_res]; [eauto|].
    exfalso. destruct X as (k & inner & E & B). rewrite (G k) in E. destruct (filter (at_key level k) l) as [|a [|b r] ] eqn:F; [discriminate|injection E as <-; discriminate B|].
    injection E as <-. change (gentry a :: gentry b :: map gentry r) with (map gentry (a :: b :: r)) in B. rewrite gdvals in B. cbn [gsub] in B.
    assert (Df : distinct (a :: b :: r)) by (rewrite <- F; now apply gfilter_distinct).
    destruct (Nat.eq_dec level n) as [->|Ne].
    - assert (Ia : In a (filter (at_key n k) l)) by (rewrite F; now left). assert (Ib : In b (filter (at_key n k) l)) by (rewrite F; right; now left).
      apply gkey_In in Ia as [_ Ia], Ib as [_ Ib]. assert (ident a = ident b) by (apply last; congruence). unfold distinct in Df. cbn in Df. inversion Df as [|? ? N1 _]; subst. apply N1. now left.
    - destruct (IH (S level) (a :: b :: r) Df) as [t Et]; [|lia|lia|congruence]. intros lv Hl x Hx. apply (Ky lv Hl). assert (In x (filter (at_key level k) l)) by (rewrite F; exact Hx). now apply gkey_In in H.
  Qed.
  Lemma gmembers d : forall level l t, distinct l -> bld d level l = Ok t ->
    forall a, (In a l <-> exists path, gfound t path a) /\ (forall p q, gfound t p a -> gfound t q a -> p = q) /\ (forall p, gfound t p a -> 1 <= List.length p <= d /\ (exists k, hd_error p = Some k /\ gk a level = Ok k)).
  Proof.
    induction d as [|d IH]; intros level l t D B a; [discriminate|].
    destruct (gbuild_get d level l t D B) as (cs & -> & Ky & _ & G). unfold gfound.
    assert (STEP : forall k path, gfollow (GGroup cs) (k :: path) = Some (GLeaf a) ->
      In a l /\ gk a level = Ok k /\ ((path = [] /\ dget cs k = Some (GLeaf a)) \/ exists x y r t', filter (at_key level k) l = x :: y :: r /\ distinct (x :: y :: r) /\ dget cs k = Some t' /\ bld d (S level) (x :: y :: r) = Ok t' /\ gfollow t' path = Some (GLeaf a))).
    { intros k path P. cbn in P. specialize (G k). destruct (dget cs k) as [t'|]; [|discriminate].
      destruct (filter (at_key level k) l) as [|x [|y r] ] eqn:F; [contradiction| |].
      - subst t'. destruct path as [|? ?]; [|discriminate]. cbn in P. injection P as <-. assert (I : In x (filter (at_key level k) l)) by (rewrite F; now left). apply gkey_In in I as [I1 I2]. auto.
      - assert (D' : distinct (x :: y :: r)) by (rewrite <- F; now apply gfilter_distinct). destruct (IH _ _ _ D' G a) as [ [_ Y] _].
        assert (I : In a (filter (at_key level k) l)) by (rewrite F; apply Y; now exists path). apply gkey_In in I as [I1 I2]. split; [exact I1|]. split; [exact I2|]. right. exists x, y, r, t'. auto. }
    split; [split|split].
    - intros I. destruct (Ky a I) as [k K]. specialize (G k). pose proof (proj2 (gkey_In level k a l) (conj I K)) as Fi.
      destruct (filter (at_key level k) l) as [|x [|y r] ] eqn:F; [contradiction| |].
      + destruct (dget cs k) as [t'|] eqn:E; [|contradiction]. destruct Fi as [->|[] ]. exists [k]. cbn. now rewrite E, G.
      + destruct (dget cs k) as [t'|] eqn:E; [|contradiction]. assert (D' : distinct (x :: y :: r)) by (rewrite <- F; now apply gfilter_distinct).
        destruct (IH _ _ _ D' G a) as [ [Y _] _]. destruct (Y Fi) as [path P]. exists (k :: path). cbn. now rewrite E.
    - intros [ [|k path] P]; [discriminate|]. now apply STEP in P.
    - intros [|k p] [|k' q] P Q; try discriminate. destruct (STEP _ _ P) as (_ & K1 & C1), (STEP _ _ Q) as (_ & K2 & C2). assert (k' = k) as -> by congruence. f_equal.
      destruct C1 as [(-> & E1)|(x & y & r & t' & F & D' & E1 & B1 & P1)], C2 as [(-> & E2)|(x' & y' & r' & t'' & F' & D'' & E2 & B2 & P2)]; [reflexivity| | |].
      + rewrite E1 in E2. injection E2 as <-. destruct q; [reflexivity|discriminate].
      + rewrite E1 in E2. injection E2 as ->. destruct p; [reflexivity|discriminate].
      + rewrite E1 in E2. injection E2 as <-. destruct (IH _ _ _ D' B1 a) as (_ & Y & _). now apply Y.
    - intros [|k p] P; [discriminate|]. destruct (STEP _ _ P) as (_ & K1 & C1). split; [|now exists k].
      destruct C1 as [(-> & E1)|(x & y & r & t' & F & D' & E1 & B1 & P1)]; [cbn; lia|]. destruct (IH _ _ _ D' B1 a) as (_ & _ & Y). destruct (Y p P1) as [Z _]. cbn. lia.
  Qed.
  (** More room changes nothing. *)
  Lemma gmore d : forall level l t, bld d level l = Ok t -> bld (S d) level l = Ok t.
  Proof.
    induction d as [|d IH]; intros level l t B; [discriminate|]. rewrite gbuild_S in *. destruct (gcollect slug key ident level [] l) as [procs|]; [|discriminate]. cbn [bind_res] in *.
    destruct (gchildren (bld d (S level)) procs) as [cs|] eqn:C; [|discriminate]. cbn [bind_res] in B.
    assert (X : gchildren (bld (S d) (S level)) procs = Ok cs); [|now rewrite X].
    clear B. revert cs C. induction procs as [|[k v] procs IHp]; intros cs C; [exact C|]. rewrite gchildren_cons in *.
    destruct (gsub (bld d (S level)) (dvals v)) as [t1|] eqn:S1; [|discriminate]. cbn [bind_res] in C. destruct (gchildren (bld d (S level)) procs) as [cs1|]; [|discriminate]. cbn [bind_res] in C. injection C as <-.
    assert (S2 : gsub (bld (S d) (S level)) (dvals v) = Ok t1) by (unfold gsub in *; destruct (dvals v) as [|a [|b r] ]; [now apply IH|exact S1|now apply IH]).
    rewrite S2. cbn [bind_res]. rewrite (IHp cs1 eq_refl). reflexivity.
  Qed.
  Lemma gmore_le d d' level l t : d <= d' -> bld d level l = Ok t -> bld d' level l = Ok t.
  Proof. induction 1; [auto|]. intros B. apply gmore. auto. Qed.
  (** Two children that share their keys up to a level are asked for the next one. *)
  Lemma gneeded d : forall j level l t a b, distinct l -> bld d level l = Ok t -> In a l -> In b l -> a <> b ->
    (forall i, i < j -> gk a (level + i) = gk b (level + i)) -> exists k, gk a (level + j) = Ok k.
  Proof.
    induction d as [|d IH]; intros j level l t a b D B Ia Ib Nab Sh; [discriminate|].
    destruct (gbuild_get d level l t D B) as (cs & -> & Ky & _ & G). destruct j as [|j]; [rewrite Nat.add_0_r; now apply Ky|].
    destruct (Ky a Ia) as [k K]. pose proof (Sh 0 ltac:(lia)) as S0. rewrite Nat.add_0_r, K in S0. specialize (G k).
    assert (Fa : In a (filter (at_key level k) l)) by (apply gkey_In; auto). assert (Fb : In b (filter (at_key level k) l)) by (apply gkey_In; auto).
    destruct (filter (at_key level k) l) as [|x [|y r] ] eqn:F; [contradiction|destruct Fa as [<-|[]], Fb as [<-|[]]; congruence|].
    destruct (dget cs k) as [t'|]; [|contradiction]. assert (D' : distinct (x :: y :: r)) by (rewrite <- F; now apply gfilter_distinct).
    replace (level + S j) with (S level + j) by lia. apply (IH j (S level) (x :: y :: r) t' a b D' G Fa Fb Nab). intros i Hi. replace (S level + i) with (level + S i) by lia. apply Sh. lia.
  Qed.
  Lemma gdir_get d level l t k : distinct l -> bld d level l = Ok t -> k <> txt "children" -> (In k (gdir t) <-> exists t', group_get t k = GChild t').
  Proof.
    intros D B Nk. destruct d as [|d]; [discriminate|]. destruct (gbuild_get d level l t D B) as (cs & -> & _). cbn [gdir group_get]. destruct (text_eqb_spec k (txt "children")); [congruence|].
    rewrite dget_mem. destruct (dget cs k) as [t'|].
    - split; intros _; exists t'; reflexivity.
    - split; intros [? H]; discriminate.
  Qed.
  Lemma gdir_keys d level l t k : distinct l -> bld d level l = Ok t -> (In k (gdir t) <-> exists a, In a l /\ gk a level = Ok k).
  Proof.
    intros D B. destruct d as [|d]; [discriminate|]. destruct (gbuild_get d level l t D B) as (cs & -> & _ & _ & G). cbn. rewrite dget_mem. specialize (G k). split.
    - intros [t' E]. rewrite E in G. destruct (filter (at_key level k) l) as [|x r] eqn:F; [contradiction|]. exists x. apply gkey_In. rewrite F. now left.
    - intros (a & Ia). apply gkey_In in Ia. destruct (dget cs k) as [t'|]; [now exists t'|]. destruct (filter (at_key level k) l) as [|x [|y r] ]; [destruct Ia|contradiction|contradiction].
  Qed.
  (** Without distinct idents: the last of those with the same key and ident is kept. *)
  Definition glast (level : nat) (l : list A) (a : A) : Prop :=
    exists l1 l2, l = l1 ++ a :: l2 /\ forall b, In b l2 -> ident b = ident a -> gk b level <> gk a level.
  Definition gkept (level : nat) (done : list A) (acc : dict text (dict text A)) : Prop :=
    NoDup (dkeys acc) /\ forall k inner, dget acc k = Some inner -> NoDup (dkeys inner) /\ forall i a, dget inner i = Some a -> i = ident a /\ gk a level = Ok k /\ glast level done a.
  Lemma gkept_add level done acc a acc' : gkept level done acc -> gadd slug key ident level acc a = Ok acc' -> gkept level (done ++ [a]) acc'.
  Proof.
    intros [N G] E. unfold gadd in E. destruct (gk a level) as [k|] eqn:K; [|discriminate]. cbn [bind_res] in E.
    set (acc1 := if dmem acc k then acc else dset acc k []) in *.
    assert (G1 : gkept level done acc1).
    { unfold acc1. destruct (dmem acc k) eqn:M; [now split|]. split; [now apply dset_NoDup|]. intros k' inner E'. rewrite dget_dset in E'.
      destruct (keqb_spec k' k); [injection E' as <-; split; [constructor|discriminate]|now apply G]. }
    destruct (dget acc1 k) as [inner|] eqn:Ei.
    - injection E as <-. destruct G1 as [N1 G1]. split; [now apply dset_NoDup|]. intros k' inner' E'. rewrite dget_dset in E'.
      assert (OLD : forall k1 inner1, dget acc1 k1 = Some inner1 -> forall i b, dget inner1 i = Some b -> (i <> ident a \/ k1 <> k) -> i = ident b /\ gk b level = Ok k1 /\ glast level (done ++ [a]) b).
      { intros k1 inner1 E1 i b Eb Ne. destruct (G1 k1 inner1 E1) as [_ X]. destruct (X i b Eb) as (-> & Kb & l1 & l2 & -> & Y). split; [reflexivity|]. split; [exact Kb|].
        exists l1, (l2 ++ [a]). split; [now rewrite <- app_assoc|]. intros c I Ec. apply in_app_or in I as [I|[<-|[] ] ]; [now apply Y|]. intros Ek. destruct Ne as [Ne|Ne]; [congruence|]. apply Ne. congruence. }
      destruct (keqb_spec k' k) as [->|Nk].
      + injection E' as <-. destruct (G1 k inner Ei) as [Ni _]. split; [now apply dset_NoDup|]. intros i b Eb. rewrite dget_dset in Eb.
        destruct (keqb_spec i (ident a)) as [->|Nia].
        * injection Eb as <-. split; [reflexivity|]. split; [exact K|]. exists done, []. split; [reflexivity|]. intros ? [].
        * apply (OLD k inner Ei i b Eb). now left.
      + destruct (G1 k' inner' E') as [Ni _]. split; [exact Ni|]. intros i b Eb. apply (OLD k' inner' E' i b Eb). now right.
    - exfalso. unfold acc1 in Ei. destruct (dmem acc k) eqn:M; [unfold dmem in M; rewrite Ei in M; discriminate|]. rewrite dget_dset, keqb_refl in Ei. discriminate.
  Qed.
  Lemma gkept_all level l procs : gcollect slug key ident level [] l = Ok procs -> gkept level l procs.
  Proof.
    assert (H : forall todo done acc, gkept level done acc -> gcollect slug key ident level acc todo = Ok procs -> gkept level (done ++ todo) procs).
    { induction todo as [|a todo IH]; intros done acc Gk E; cbn [gcollect] in E; [injection E as <-; now rewrite app_nil_r|].
      destruct (gadd slug key ident level acc a) as [acc1|] eqn:E1; [|discriminate]. cbn [bind_res] in E.
      replace (done ++ a :: todo) with ((done ++ [a]) ++ todo) by (now rewrite <- app_assoc). apply (IH _ acc1); [|exact E]. now apply (gkept_add level done acc). }
    apply (H l [] []). split; [constructor|discriminate].
  Qed.
  Lemma gkept_In level l procs k inner a : gkept level l procs -> dget procs k = Some inner -> In a (dvals inner) -> glast level l a.
  Proof.
    intros [_ G] E I. destruct (G k inner E) as [N X]. unfold dvals in I. apply in_map_iff in I as ([i b] & <- & I). apply (In_dget _ _ _ N) in I. now apply X in I.
  Qed.
  Lemma glast_In level l a : glast level l a -> In a l.
  Proof. intros (l1 & l2 & -> & _). apply in_or_app. right. now left. Qed.
  Lemma gfound_last d : forall level l t path a, bld d level l = Ok t -> gfound t path a -> glast level l a.
  Proof.
    induction d as [|d IH]; intros level l t path a B F; [discriminate|]. rewrite gbuild_S in B.
    destruct (gcollect slug key ident level [] l) as [procs|] eqn:C; [|discriminate]. cbn [bind_res] in B. pose proof (gkept_all _ _ _ C) as Kp.
    pose proof (gchildren_get (bld d (S level)) _ (proj1 Kp)) as X. destruct (gchildren (bld d (S level)) procs) as [cs|]; [|discriminate]. cbn [bind_res] in B. injection B as <-.
    destruct path as [|k path]; [discriminate|]. unfold gfound in F. cbn [gfollow] in F. destruct X as [_ X]. specialize (X k). destruct (dget cs k) as [t'|]; [|discriminate].
    destruct (dget procs k) as [inner|] eqn:E; [|contradiction]. apply (gkept_In level l procs k inner a Kp E). unfold gsub in X. destruct (dvals inner) as [|x [|y r] ].
    - exact (glast_In _ _ _ (IH _ _ _ _ _ X F)).
    - injection X as <-. destruct path; [injection F as ->; now left|discriminate].
    - exact (glast_In _ _ _ (IH _ _ _ _ _ X F)).
  Qed.
End Gen.

Lemma gkey_Ok {A} slug (key : A -> nat -> res text) a level n : key a level = Ok n -> gkey slug key a level = Ok (attr_name slug n).
Proof. intros E. unfold gkey, attr_name. rewrite E. cbn [bind_res]. destruct (slug n) as [|c r]; [reflexivity|]. destruct (is_digit c); reflexivity. Qed.
Lemma pid_key_inj p q : pid_key p = pid_key q -> ps_pid p = ps_pid q.
Proof. unfold pid_key. intros E. apply app_inv_head in E. now apply id_text_inj. Qed.
Lemma ps_key_answers p level : answers p -> level <= 3 -> exists k, ps_key p level = Ok k.
Proof.
  intros [E C] L. assert (X : exists k, cmd_key p = Ok k) by (unfold cmd_key; destruct (ps_cmdline p); [eauto|eauto|congruence]).
  assert (Y : exists k, exe_key p = Ok k) by (unfold exe_key; destruct (ps_exe p); [eauto|eauto|congruence]).
  assert (Z : exists k, name_key p = Ok k) by (unfold name_key; destruct (ps_exe p); [eauto|eauto|congruence]).
  destruct level as [|[|[|[|n] ] ] ]; cbn [ps_key]; [exact Z|exact Y|exact X|eauto|lia].
Qed.
Lemma attr_pid slug p : keeps_pids slug -> attr_name slug (pid_key p) = pid_key p.
Proof. intros K. unfold attr_name, pid_key. rewrite K. reflexivity. Qed.
Lemma ps_distinct l : distinct_pids l -> distinct pid_key l.
Proof.
  unfold distinct_pids, distinct. intros N. induction l as [|p l IH]; cbn in *; [constructor|]. inversion N as [|? ? N1 N2]; subst. constructor; [|auto].
  intros I. apply N1. apply in_map_iff in I as (q & E & I). apply pid_key_inj in E. rewrite <- E. now apply in_map.
Qed.
