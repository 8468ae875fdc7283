From Verif Require Import Py PathModel PathSpec.

Lemma text_eqb_refl a : text_eqb a a = true.
Proof. destruct (text_eqb_spec a a); congruence. Qed.
Lemma text_eqb_neq a b : a <> b -> text_eqb a b = false.
Proof. destruct (text_eqb_spec a b); congruence. Qed.

(** Splitting and joining *)
Lemma split_ne sep s : split_on sep s <> [].
Proof. destruct s as [|c s]; cbn; [discriminate|]. destruct (N.eqb c sep); [discriminate|]. destruct (split_on sep s); discriminate. Qed.
Lemma split_app sep a b : split_on sep (a ++ sep :: b) = split_on sep a ++ split_on sep b.
Proof.
  induction a as [|c a IH]; cbn; [now rewrite N.eqb_refl|].
  destruct (N.eqb c sep); [cbn; now rewrite IH|]. rewrite IH.
  destruct (split_on sep a) eqn:E; [now destruct (split_ne sep a)|]. reflexivity.
Qed.
Lemma split_none sep s : ~ In sep s -> split_on sep s = [s].
Proof.
  induction s as [|c s IH]; cbn; intros H; [reflexivity|].
  destruct (N.eqb_spec c sep); [exfalso; auto|]. rewrite IH by auto. reflexivity.
Qed.
Lemma split_pieces sep s : Forall (fun p => ~ In sep p) (split_on sep s).
Proof.
  induction s as [|c s IH]; cbn; [repeat constructor; auto|].
  destruct (N.eqb_spec c sep) as [->|Ne]; [constructor; auto|].
  destruct (split_on sep s) as [|p ps]; [repeat constructor; cbn; intuition|].
  inversion IH; subst. constructor; [|assumption]. cbn. intuition.
Qed.
Lemma join_split sep s : join_with [sep] (split_on sep s) = s.
Proof.
  induction s as [|c s IH]; cbn; [reflexivity|].
  destruct (N.eqb_spec c sep) as [->|Ne].
  - destruct (split_on sep s) eqn:E; [now destruct (split_ne sep s)|]. cbn in *. now rewrite IH.
  - destruct (split_on sep s) as [|p ps] eqn:E; [now destruct (split_ne sep s)|].
    destruct ps; cbn in *; [now rewrite IH|]. now rewrite <- IH.
Qed.
Lemma split_join sep ps : ps <> [] -> Forall (fun p => ~ In sep p) ps -> split_on sep (join_with [sep] ps) = ps.
Proof.
  induction ps as [|p ps IH]; intros N0 F; [congruence|]. inversion F; subst.
  destruct ps as [|q ps]; [now apply split_none|].
  change (join_with [sep] (p :: q :: ps)) with (p ++ sep :: join_with [sep] (q :: ps)).
  rewrite split_app, IH; [|discriminate|assumption]. rewrite split_none by assumption. reflexivity.
Qed.
Lemma split_nil_head sep s : split_on sep (sep :: s) = [] :: split_on sep s.
Proof. cbn. now rewrite N.eqb_refl. Qed.

Lemma startswith_nil s : startswith s [] = true.
Proof. now destruct s. Qed.
Lemma startswith_cons c p d s : startswith (d :: s) (c :: p) = N.eqb c d && startswith s p.
Proof. reflexivity. Qed.
(** enter *)
Lemma enter_ok names comp : ~ In c_slash comp -> Forall name_ok names -> Forall name_ok (enter names comp).
Proof.
  intros Hs F. unfold enter. destruct (text_eqb_spec comp []); [exact F|]. destruct (text_eqb_spec comp t_dot); [exact F|].
  destruct (text_eqb_spec comp t_dotdot).
  - rewrite Forall_forall in *. intros x Hx. apply F. destruct names as [|nm nms _] using rev_ind; [exact Hx|].
    rewrite removelast_last in Hx. apply in_or_app. auto.
  - apply Forall_app. split; [exact F|]. repeat constructor; auto.
Qed.
Lemma enter_fold_ok ps : Forall (fun p => ~ In c_slash p) ps -> forall names, Forall name_ok names -> Forall name_ok (fold_left enter ps names).
Proof. induction 1 as [|p ps H F IH]; cbn; intros names Hn; [exact Hn|]. apply IH. now apply enter_ok. Qed.
Lemma walk_ok d p : dir_ok d -> dir_ok (walk d p).
Proof. intros H. apply enter_fold_ok; [apply split_pieces|exact H]. Qed.
Lemma resolve_ok d p : dir_ok d -> dir_ok (resolve d p).
Proof. intros H. unfold resolve. destruct (startswith p _); apply walk_ok; [constructor|exact H]. Qed.
Lemma enter_name names n : name_ok n -> enter names n = names ++ [n].
Proof. intros (A & B & C & _). unfold enter. now rewrite !text_eqb_neq. Qed.
Lemma enter_names ns : Forall name_ok ns -> forall names, fold_left enter ns names = names ++ ns.
Proof.
  induction 1 as [|n ns H F IH]; cbn; intros names; [now rewrite app_nil_r|]. rewrite enter_name, IH by assumption. now rewrite <- app_assoc.
Qed.

(** normpath of an absolute path is a walk from the root *)
Lemma norm_enter i new comp : i <> 0 -> Forall (fun c => c <> t_dotdot) new ->
  norm_step i new comp = rev (enter (rev new) comp) /\ Forall (fun c => c <> t_dotdot) (norm_step i new comp).
Proof.
  intros Hi F. unfold norm_step, enter.
  destruct (text_eqb_spec comp []) as [->|N1]; cbn [orb]; [rewrite rev_involutive; auto|].
  destruct (text_eqb_spec comp t_dot) as [->|N2]; cbn [orb]; [rewrite rev_involutive; auto|].
  destruct (Nat.eqb_spec i 0); [contradiction|]. cbn [andb orb].
  destruct (text_eqb_spec comp t_dotdot) as [->|N3]; cbn [negb orb].
  - destruct new as [|c new]; [split; [reflexivity|constructor]|]. inversion F; subst.
    rewrite text_eqb_neq by assumption. cbn [rev]. rewrite removelast_last, rev_involutive. auto.
  - cbn. rewrite rev_app_distr, rev_involutive. cbn. auto.
Qed.
Lemma norm_fold i ps : i <> 0 -> forall new, Forall (fun c => c <> t_dotdot) new ->
  rev (fold_left (norm_step i) ps new) = fold_left enter ps (rev new).
Proof.
  intros Hi. induction ps as [|p ps IH]; cbn; intros new F; [reflexivity|].
  destruct (norm_enter i new p Hi F) as [E F']. rewrite IH by exact F'. now rewrite E, rev_involutive.
Qed.
Lemma starts_slash p : startswith p [c_slash] = true <-> is_abs p.
Proof.
  unfold is_abs. destruct p as [|c p]; [split; [discriminate|intros [r H]; discriminate]|].
  rewrite startswith_cons, startswith_nil, andb_true_r. split.
  - intros H. apply N.eqb_eq in H as <-. eauto.
  - intros [r H]. injection H as -> _. apply N.eqb_refl.
Qed.
Lemma initial_cases p : startswith p [c_slash] = true -> initial_slashes p = 1 \/ initial_slashes p = 2.
Proof. unfold initial_slashes. intros ->. destruct (_ && _); auto. Qed.
Lemma normpath_abs p : startswith p [c_slash] = true -> normpath p = render (walk (root_of p) p).
Proof.
  intros A. unfold normpath. destruct p as [|c r] eqn:E; [discriminate|]. rewrite <- E in *.
  pose proof (initial_cases p A) as I. rewrite norm_fold; [|lia|constructor]. cbn [rev].
  unfold render, walk, root_of. cbn [d_two d_names].
  destruct I as [-> | ->]; cbn [Nat.eqb repeat app]; reflexivity.
Qed.

(** Walking a rendered directory *)
Lemma split_render d : dir_ok d ->
  exists pre : list text, (pre = [[]; []] \/ pre = [[]; []; []] \/ pre = [[]] \/ pre = [[]; []]) /\
    split_on c_slash (render d) = pre ++ d_names d.
Proof.
  intros H. unfold render. destruct (d_names d) as [|n ns] eqn:E.
  - destruct (d_two d); cbn; [exists [[]; []; []]|exists [[]; []]]; auto.
  - assert (S : split_on c_slash (join_with [c_slash] (n :: ns)) = n :: ns).
    { apply split_join; [discriminate|]. unfold dir_ok in H. rewrite E in H. eapply Forall_impl; [|exact H]. intros a (_ & _ & _ & X). exact X. }
    destruct (d_two d); cbn [app]; rewrite !split_nil_head, S; [exists [[]; []]|exists [[]]]; auto.
Qed.
Lemma walk_render d b : dir_ok d -> walk (mkDir b []) (render d) = mkDir b (d_names d).
Proof.
  intros H. destruct (split_render d H) as (pre & Hp & E). unfold walk. cbn [d_names d_two]. rewrite E, fold_left_app.
  assert (X : fold_left enter pre [] = []) by (destruct Hp as [-> | [-> | [-> | ->]]]; reflexivity).
  rewrite X, enter_names by exact H. reflexivity.
Qed.
Lemma render_head d : exists r, render d = c_slash :: r.
Proof. unfold render. destruct (d_two d); cbn; eauto. Qed.
Lemma render_abs d : startswith (render d) [c_slash] = true.
Proof. destruct (render_head d) as [r ->]. rewrite startswith_cons, startswith_nil, N.eqb_refl; reflexivity. Qed.
Lemma name_head n : name_ok n -> exists c r, n = c :: r /\ c <> c_slash.
Proof. intros (A & _ & _ & B). destruct n as [|c r]; [congruence|]. exists c, r. split; [reflexivity|]. intros ->. apply B. now left. Qed.
Lemma initial_one c r : c <> c_slash -> initial_slashes (c_slash :: c :: r) = 1.
Proof.
  intros H. unfold initial_slashes. rewrite !startswith_cons, !startswith_nil, !N.eqb_refl. cbn [andb].
  destruct (N.eqb_spec c_slash c); [congruence|]. reflexivity.
Qed.
Lemma initial_two c r : c <> c_slash -> initial_slashes (c_slash :: c_slash :: c :: r) = 2.
Proof.
  intros H. unfold initial_slashes. rewrite !startswith_cons, !startswith_nil, !N.eqb_refl. cbn [andb].
  destruct (N.eqb_spec c_slash c); [congruence|]. reflexivity.
Qed.
(** How a directory's text continues. *)
Lemma initial_render d rest : dir_ok d -> (d_names d = [] -> startswith rest [c_slash] = false) ->
  initial_slashes (render d ++ rest) = if d_two d then 2 else 1.
Proof.
  intros H R. unfold render. destruct (d_names d) as [|n ns] eqn:E.
  - specialize (R eq_refl). destruct rest as [|c rest]; [destruct (d_two d); reflexivity|].
    rewrite startswith_cons, startswith_nil, andb_true_r in R. apply N.eqb_neq in R.
    destruct (d_two d); cbn [app join_with]; [apply initial_two; congruence|apply initial_one; congruence].
  - unfold dir_ok in H. rewrite E in H. inversion H as [|? ? Hn _]; subst.
    assert (X : exists c (q : text), join_with [c_slash] (n :: ns) = c :: q /\ c <> c_slash).
    { destruct (name_head n Hn) as (c & r & -> & Hc). exists c. destruct ns; cbn; eauto. }
    destruct X as (c & q & -> & Hc).
    destruct (d_two d); cbn [app]; [now apply initial_two|now apply initial_one].
Qed.
Lemma root_render d rest : dir_ok d -> (d_names d = [] -> startswith rest [c_slash] = false) -> root_of (render d ++ rest) = mkDir (d_two d) [].
Proof. intros H R. unfold root_of. rewrite initial_render by assumption. now destruct (d_two d). Qed.
Lemma resolve_render d0 d : dir_ok d -> resolve d0 (render d) = d.
Proof.
  intros H. unfold resolve. rewrite render_abs. rewrite <- (app_nil_r (render d)) at 1. rewrite root_render by (auto).
  rewrite walk_render by exact H. now destruct d.
Qed.
Lemma render_inj d1 d2 : dir_ok d1 -> dir_ok d2 -> render d1 = render d2 -> d1 = d2.
Proof. intros H1 H2 E. rewrite <- (resolve_render d1 d1 H1), <- (resolve_render d1 d2 H2). now rewrite E. Qed.
(** A directory's text is its own normal form. *)
Lemma normpath_render d : dir_ok d -> normpath (render d) = render d.
Proof.
  intros H. rewrite normpath_abs by apply render_abs. pose proof (resolve_render d d H) as R. unfold resolve in R.
  rewrite render_abs in R. now rewrite R.
Qed.

Lemma ends_slash_app a c : ends_slash (a ++ [c]) = N.eqb c c_slash.
Proof. unfold ends_slash. now rewrite rev_app_distr. Qed.
Lemma join_last ns n : exists q, join_with [c_slash] (ns ++ [n]) = q ++ n.
Proof.
  induction ns as [|m ns [q IH]]; [exists []; reflexivity|]. cbn [app].
  destruct (ns ++ [n]) as [|x xs] eqn:E; [destruct ns; discriminate|].
  change (join_with [c_slash] (m :: x :: xs)) with (m ++ [c_slash] ++ join_with [c_slash] (x :: xs)). rewrite IH.
  exists (m ++ [c_slash] ++ q). now rewrite <- !app_assoc.
Qed.
Lemma render_ends d : dir_ok d -> ends_slash (render d) = match d_names d with [] => true | _ => false end.
Proof.
  intros H. unfold render. destruct (d_names d) as [|n0 ns0] eqn:E; [destruct (d_two d); reflexivity|].
  destruct (@exists_last _ (n0 :: ns0)) as (ns & n & E2); [discriminate|]. rewrite E2.
  destruct (join_last ns n) as [q ->]. unfold dir_ok in H. rewrite E, E2 in H. apply Forall_app in H as [_ H]. inversion H as [|? ? Hn _]; subst.
  destruct Hn as (A & _ & _ & B). destruct (@exists_last _ n A) as (n' & c & ->).
  rewrite !app_assoc, ends_slash_app. destruct (N.eqb_spec c c_slash) as [->|]; [|reflexivity]. exfalso. apply B. apply in_or_app. right. now left.
Qed.
Lemma walk_app_slash d a b : walk d (a ++ c_slash :: b) = walk (walk d a) b.
Proof. unfold walk. cbn [d_two d_names]. now rewrite split_app, fold_left_app. Qed.
Lemma walk_empty d : walk d [] = d.
Proof. destruct d. reflexivity. Qed.
Lemma walk_slash d p : walk d (c_slash :: p) = walk d p.
Proof. change (c_slash :: p) with ([] ++ c_slash :: p). rewrite walk_app_slash, walk_empty. reflexivity. Qed.

(** os.path.join on a directory followed by normpath is resolution. *)
Lemma join_resolve d p pcwd : dir_ok d -> abspath pcwd (path_join (render d) p) = render (resolve d p).
Proof.
  intros H. unfold path_join, resolve. destruct (startswith p [c_slash]) eqn:A.
  { unfold abspath. rewrite A. now apply normpath_abs. }
  destruct (render d) as [|c0 r0] eqn:Er; [destruct (render_head d) as [r X]; congruence|]. rewrite <- Er. clear c0 r0 Er.
  assert (J : exists rest : text, (if ends_slash (render d) then render d ++ p else render d ++ [c_slash] ++ p) = render d ++ rest /\
              (d_names d = [] -> startswith rest [c_slash] = false) /\
              walk (mkDir (d_two d) []) (render d ++ rest) = walk d p).
  { rewrite render_ends by exact H. destruct (d_names d) as [|n ns] eqn:E.
    - exists p. split; [reflexivity|]. split; [auto|]. destruct d as [two names]. cbn in E. subst names. unfold render. cbn [d_two d_names].
      destruct two; cbn [join_with app]; now rewrite ?walk_slash.
    - exists ([c_slash] ++ p). split; [reflexivity|]. split; [discriminate|]. cbn [app]. rewrite walk_app_slash, walk_render by exact H.
      now destruct d. }
  destruct J as (rest & -> & R & W). unfold abspath.
  assert (S : startswith (render d ++ rest) [c_slash] = true). { destruct (render_head d) as [r ->]. cbn [app]; rewrite startswith_cons, startswith_nil, N.eqb_refl; reflexivity. }
  rewrite S, normpath_abs by exact S. now rewrite root_render, W by assumption.
Qed.
