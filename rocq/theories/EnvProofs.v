From Verif Require Import Py PathModel PathSpec PathProofs EnvModel EnvSpec.

Lemma set_nth_length {A} (l : list A) n x : List.length (set_nth l n x) = List.length l.
Proof. revert n; induction l as [|y l IH]; intros [|n]; cbn; congruence. Qed.
Lemma nth_set_same {A} (l : list A) n x d : n < List.length l -> nth n (set_nth l n x) d = x.
Proof. revert n; induction l as [|y l IH]; intros [|n]; cbn; intros; [lia|lia|easy|]. apply IH; lia. Qed.
Lemma nth_set_other {A} (l : list A) n m x d : n <> m -> nth m (set_nth l n x) d = nth m l d.
Proof. revert n m; induction l as [|y l IH]; intros [|n] [|m]; cbn; intros; try easy. apply IH; lia. Qed.
Lemma Forall_set {A} (P : A -> Prop) l n x : Forall P l -> P x -> Forall P (set_nth l n x).
Proof. intros F Px. revert n; induction F; intros [|n]; cbn; constructor; auto. Qed.

(** Path expansion *)
Lemma tilde_head l : startswith (c_tilde :: l) [c_tilde] = true.
Proof. rewrite startswith_cons, startswith_nil. reflexivity. Qed.
Lemma expanduser_plain h p : startswith p [c_tilde] = false -> expanduser h p = p.
Proof.
  destruct p as [|c r]; [easy|]. rewrite startswith_cons, startswith_nil, andb_true_r. intros H.
  unfold expanduser. rewrite N.eqb_sym, H. easy.
Qed.
Lemma slash_not_tilde p : startswith p [c_slash] = true -> startswith p [c_tilde] = false.
Proof. intros H. apply starts_slash in H. destruct H as [r ->]. easy. Qed.
Lemma path_join_abs d p : startswith (path_join (render d) p) [c_slash] = true.
Proof.
  unfold path_join. destruct (startswith p [c_slash]) eqn:E; [easy|].
  destruct (render_head d) as [r Hr]. rewrite Hr. destruct (ends_slash (c_slash :: r)); cbn [app]; rewrite startswith_cons, startswith_nil; reflexivity.
Qed.
Lemma expand_plain w d p : dir_ok d -> startswith p [c_tilde] = false ->
  expand_path w (render d) p = render (resolve d p).
Proof.
  intros Hd Ht. unfold expand_path. rewrite Ht. cbn [negb]. rewrite andb_true_r.
  destruct (startswith p [c_slash]) eqn:E; cbn [negb].
  - rewrite expanduser_plain by easy. unfold abspath, resolve. rewrite E. now apply normpath_abs.
  - rewrite expanduser_plain by (apply slash_not_tilde, path_join_abs). now apply join_resolve.
Qed.
Lemma expand_tilde w cwd dp p : is_dir (w_pcwd w) dp -> startswith p [c_tilde] = true ->
  expand_path w cwd p = render (resolve dp (expanduser (m_home (w_m w)) p)).
Proof.
  intros [Hd Hp] Ht. unfold expand_path. rewrite Ht. cbn [negb]. rewrite andb_false_r.
  unfold abspath. destruct (startswith (expanduser _ p) [c_slash]) eqn:E.
  - unfold resolve. rewrite E. now apply normpath_abs.
  - rewrite Hp. replace (normpath (path_join (render dp) (expanduser (m_home (w_m w)) p)))
      with (abspath [] (path_join (render dp) (expanduser (m_home (w_m w)) p))).
    + now apply join_resolve.
    + unfold abspath. now rewrite path_join_abs.
Qed.
Lemma expand_is_dir w d dp p : dir_ok d -> is_dir (w_pcwd w) dp -> exists q, is_dir (expand_path w (render d) p) q.
Proof.
  intros Hd Hp. destruct (startswith p [c_tilde]) eqn:E.
  - rewrite (expand_tilde _ _ dp) by easy. eexists; split; [|reflexivity]. apply resolve_ok, Hp.
  - rewrite expand_plain by easy. eexists; split; [|reflexivity]. now apply resolve_ok.
Qed.

(** "~name/rest" with a known home directory *)
Lemma before_slash_app n r : ~ In c_slash n -> (r = [] \/ is_abs r) -> before_slash (n ++ r) = (n, r).
Proof.
  intros Hn Hr. induction n as [|c n IH]; cbn [app].
  - destruct Hr as [->|[q ->]]; [easy|]. unfold before_slash. now rewrite N.eqb_refl.
  - cbn [before_slash]. destruct (N.eqb_spec c c_slash) as [->|]; [destruct Hn; now left|].
    rewrite IH by (intros H; apply Hn; now right). easy.
Qed.
Lemma lstrip_id c l : c <> c_slash -> lstrip_slash (c :: l) = c :: l.
Proof. intros. cbn. destruct (N.eqb_spec c c_slash); congruence. Qed.
Lemma rstrip_id l c : c <> c_slash -> rstrip_slash (l ++ [c]) = l ++ [c].
Proof. intros. unfold rstrip_slash. rewrite rev_app_distr. cbn [rev app]. rewrite lstrip_id by easy. cbn [rev]. now rewrite rev_involutive. Qed.
Lemma rstrip_render d : dir_ok d -> d_names d <> [] -> rstrip_slash (render d) = render d.
Proof.
  intros Hd Hn. pose proof (render_ends d Hd) as He. destruct (d_names d) as [|n0 ns0]; [congruence|].
  destruct (render_head d) as [r Hr].
  destruct (@exists_last _ (render d)) as [l [c Hl]]; [now rewrite Hr|].
  rewrite Hl in *. apply rstrip_id. rewrite ends_slash_app in He. now apply N.eqb_neq in He.
Qed.
Lemma resolve_render_app d0 dh r : dir_ok dh -> d_names dh <> [] -> (r = [] \/ is_abs r) ->
  resolve d0 (render dh ++ r) = walk dh r.
Proof.
  intros Hd Hn Hr. unfold resolve. destruct (render_head dh) as [s Hs].
  assert (E : startswith (render dh ++ r) [c_slash] = true) by (rewrite Hs; cbn [app]; rewrite startswith_cons, startswith_nil; reflexivity).
  rewrite E, root_render by (easy || intros H; congruence). destruct Hr as [->|[q ->]].
  - rewrite app_nil_r, walk_render by easy. rewrite walk_empty. now destruct dh.
  - rewrite walk_app_slash, walk_render by easy. rewrite walk_slash. now destruct dh.
Qed.
Lemma expand_home w cwd n r h dh dp : is_dir (w_pcwd w) dp -> ~ In c_slash n -> (r = [] \/ is_abs r) ->
  m_home (w_m w) n = Some h -> is_dir h dh -> d_names dh <> [] ->
  expand_path w cwd (c_tilde :: n ++ r) = render (walk dh r).
Proof.
  intros Hp Hn Hr Hh [Hd ->] Hne. rewrite (expand_tilde _ _ dp) by (easy || apply tilde_head).
  unfold expanduser. rewrite N.eqb_refl, before_slash_app, Hh by easy.
  rewrite rstrip_render by easy. destruct (render_head dh) as [s Hs].
  destruct (render dh ++ r) eqn:E; [rewrite Hs in E; discriminate|].
  rewrite <- E. now rewrite resolve_render_app.
Qed.
Lemma expand_unknown w cwd n r dp : is_dir (w_pcwd w) dp -> ~ In c_slash n -> (r = [] \/ is_abs r) ->
  m_home (w_m w) n = None ->
  expand_path w cwd (c_tilde :: n ++ r) = render (resolve dp (c_tilde :: n ++ r)).
Proof.
  intros Hp Hn Hr Hh. rewrite (expand_tilde _ _ dp) by (easy || apply tilde_head).
  unfold expanduser. now rewrite N.eqb_refl, before_slash_app, Hh.
Qed.

(** Invariant *)
Definition env_ok (w : world) (x : env) : Prop :=
  (exists d, is_dir (e_cwd x) d) /\ (forall r, e_exp x = Some r -> r < List.length (w_dicts w)).
Record inv (w : world) : Prop := mkInv {
  inv_m : machine_ok (w_m w);
  inv_p : exists d, is_dir (w_pcwd w) d;
  inv_e : Forall (env_ok w) (w_envs w);
  inv_d : 0 < List.length (w_dicts w) }.

Lemma env_ok_at w e : inv w -> e < List.length (w_envs w) -> env_ok w (env_at w e).
Proof. intros I0 H. eapply Forall_forall; [apply (inv_e _ I0)|]. now apply nth_In. Qed.
Lemma env_ok_more w w' x : List.length (w_dicts w) <= List.length (w_dicts w') -> env_ok w x -> env_ok w' x.
Proof. intros L [A B]. split; [easy|]. intros r H. apply B in H. lia. Qed.
Lemma env_ok_mono w w' l : List.length (w_dicts w) <= List.length (w_dicts w') -> Forall (env_ok w) l -> Forall (env_ok w') l.
Proof. intros L. apply Forall_impl. intros x. now apply env_ok_more. Qed.

Lemma cd_core_ok w x p x' pc r : machine_ok (w_m w) -> (exists d, is_dir (w_pcwd w) d) -> env_ok w x ->
  cd_core w x p = ((x', pc), r) -> env_ok w x' /\ (exists d, is_dir pc d).
Proof.
  intros Hm [dp Hp] [[d [Hd Hc]] Hx]. unfold cd_core. rewrite Hc.
  destruct (expand_is_dir w d dp p Hd Hp) as [q Hq].
  destruct (m_kind _ _) as [k|]; [|intros [= <- <- _]; split; [now split; [exists d|]|now exists dp]].
  assert (env_ok w (mkEnv (expand_path w (render d) p) (e_exp x) (e_inter x))) by (split; [now exists q|easy]).
  destruct (e_inter x); [destruct k|]; intros [= <- <- _]; (split; [easy|]); eauto.
Qed.
Lemma do_cd_inv w e p : inv w -> e < List.length (w_envs w) -> inv (fst (do_cd w e p)).
Proof.
  intros I0 He. unfold do_cd. destruct (cd_core w (env_at w e) p) as [[x pc] r] eqn:E.
  apply cd_core_ok in E; [|apply I0|apply I0|now apply env_ok_at]. destruct E as [E1 E2]. destruct I0.
  split; cbn; auto. apply Forall_set; [|easy]. eapply env_ok_mono, inv_e0. cbn; lia.
Qed.
Lemma do_new_inv w c ex i : inv w -> (forall r, ex = Some r -> r < List.length (w_dicts w)) -> inv (fst (do_new w c ex i)).
Proof.
  intros I0 Hex. unfold do_new. set (x0 := mkEnv (w_pcwd w) ex i).
  assert (X0 : env_ok w x0) by (split; [apply I0|easy]).
  destruct (match c with None => _ | Some p => _ end) as [[x pc] r] eqn:E.
  assert (K : env_ok w x /\ exists d, is_dir pc d).
  { destruct c; [|injection E as <- <- _; split; [easy|apply I0] ]. eapply cd_core_ok; eauto; apply I0. }
  destruct K as [K1 K2]. destruct I0. destruct r; split; cbn; auto.
  - apply Forall_app; split; [eapply env_ok_mono, inv_e0; cbn; lia|]. constructor; [easy|constructor].
Qed.
Lemma do_new_ok_len w c ex i w' n : do_new w c ex i = (w', Ok n) -> n = List.length (w_envs w) /\ List.length (w_envs w') = S n /\ w_dicts w' = w_dicts w.
Proof.
  unfold do_new. destruct (match c with None => _ | Some p => _ end) as [[x pc] [u|z] ]; [|discriminate].
  intros [= <- <-]. cbn. rewrite app_length. cbn. split; [easy|split; [lia|easy] ].
Qed.
Definition derive_world (w : world) (src : env) (ex : option nat) : world * nat :=
  match ex with
  | Some r => (w, r)
  | None => (mkW (w_m w) (w_pcwd w) (w_dicts w ++ [exports w src]) (w_envs w), List.length (w_dicts w))
  end.
Lemma derive_world_inv w src ex : inv w -> inv (fst (derive_world w src ex)).
Proof.
  intros I0. destruct ex; [easy|]. destruct I0. split; cbn; auto.
  - eapply env_ok_mono, inv_e0. cbn. rewrite app_length. lia.
  - rewrite app_length. lia.
Qed.
Lemma do_derive_inv w e c ex i : inv w -> e < List.length (w_envs w) -> (forall r, ex = Some r -> r < List.length (w_dicts w)) -> inv (fst (do_derive w e c ex i)).
Proof.
  intros I0 He Hex. unfold do_derive. fold (derive_world w (env_at w e) ex).
  pose proof (derive_world_inv w (env_at w e) ex I0) as I1.
  destruct (derive_world w (env_at w e) ex) as [w1 ref] eqn:E. cbn [fst] in I1.
  assert (R : ref < List.length (w_dicts w1)).
  { destruct ex; cbn in E; injection E as <- <-; [now apply Hex|]. cbn. rewrite app_length; cbn; lia. }
  set (i' := match i with Some b => b | None => _ end).
  pose proof (do_new_inv w1 (Some (e_cwd (env_at w e))) (Some ref) i' I1) as I2.
  destruct (do_new w1 _ _ _) as [w2 [n|z] ] eqn:E2; cbn [fst] in I2.
  2:{ cbn. apply I2. now intros r [= <-]. }
  specialize (I2 ltac:(now intros r [= <-])).
  destruct c as [p|]; [|easy].
  apply do_new_ok_len in E2. pose proof (do_cd_inv w2 n p I2 ltac:(lia)) as I3.
  destruct (do_cd w2 n p) as [w3 [u|z] ]; easy.
Qed.
Lemma set_dict_inv w r d : inv w -> inv (set_dict w r d).
Proof.
  intros []. split; cbn; auto; [|now rewrite set_nth_length].
  eapply env_ok_mono, inv_e0. cbn. now rewrite set_nth_length.
Qed.
Lemma step_inv w o : inv w -> op_ok w o -> inv (step w o).
Proof.
  intros I0 Ho. destruct o; cbn [step op_ok] in *.
  - apply do_new_inv; [easy|]. intros r ->. easy.
  - apply do_derive_inv; [easy|easy|]. intros r ->. easy.
  - now apply do_cd_inv.
  - now apply do_cd_inv.
  - now apply set_dict_inv.
  - now apply set_dict_inv.
  - destruct I0. split; cbn; auto; [|rewrite app_length; lia]. eapply env_ok_mono, inv_e0. cbn. rewrite app_length; lia.
  - now apply set_dict_inv.
  - destruct I0. now split; cbn.
  - destruct (m_kind _ _) as [ [| ]| ]; try easy. destruct I0. split; cbn; auto.
    destruct (inv_m0 p) as [d Hd]. now exists d.
Qed.
Lemma reachable_inv w : reachable w -> inv w.
Proof.
  induction 1.
  - split; cbn; eauto; lia.
  - now apply step_inv.
Qed.

(** What cd does *)
Lemma set_env_at w e x : e < List.length (w_envs w) -> env_at (set_env w e x) e = x.
Proof. intros. unfold env_at, set_env. cbn. now apply nth_set_same. Qed.
Lemma set_env_other w e x m : m <> e -> env_at (set_env w e x) m = env_at w m.
Proof. intros. unfold env_at, set_env. cbn. apply nth_set_other. lia. Qed.
Lemma do_cd_ok w e p w' : e < List.length (w_envs w) -> do_cd w e p = (w', Ok tt) ->
  let q := expand_path w (e_cwd (env_at w e)) p in
  m_kind (w_m w) q <> None /\ e_cwd (env_at w' e) = q /\ w_dicts w' = w_dicts w /\ e_exp (env_at w' e) = e_exp (env_at w e) /\
  e_inter (env_at w' e) = e_inter (env_at w e) /\
  (forall m, m <> e -> env_at w' m = env_at w m) /\ List.length (w_envs w') = List.length (w_envs w) /\ w_m w' = w_m w /\
  w_pcwd w' = (if e_inter (env_at w e) then m_real (w_m w) q else w_pcwd w).
Proof.
  intros He. cbn zeta. unfold do_cd, cd_core. set (q := expand_path w (e_cwd (env_at w e)) p).
  destruct (m_kind (w_m w) q) as [k|] eqn:K; [|discriminate].
  set (x' := mkEnv q _ _). intros H.
  assert (exists pc, w' = set_env (set_pcwd w pc) e x' /\ pc = (if e_inter (env_at w e) then m_real (w_m w) q else w_pcwd w)) as [pc [-> Hpc]].
  { destruct (e_inter (env_at w e)); [destruct k; [|discriminate]|]; injection H as <-; eauto. }
  rewrite set_env_at by easy. subst x'. cbn [e_cwd e_exp e_inter].
  split; [congruence|]. repeat (split; [easy|]). split; [|split; [|split] ]; try easy.
  - intros m Hm. now rewrite set_env_other.
  - cbn. now rewrite set_nth_length.
Qed.
Lemma set_nth_id {A} (l : list A) n d : set_nth l n (nth n l d) = l.
Proof. revert n; induction l as [|y l IH]; intros [|n]; cbn; try easy. now rewrite IH. Qed.
Lemma do_cd_missing w e p : m_kind (w_m w) (expand_path w (e_cwd (env_at w e)) p) = None ->
  do_cd w e p = (w, Err (OSError ENOENT)).
Proof.
  intros H. unfold do_cd, cd_core. rewrite H. f_equal. unfold set_env, set_pcwd, env_at. cbn. rewrite set_nth_id. now destruct w.
Qed.
Lemma do_cd_err_iff w e p : e < List.length (w_envs w) ->
  let q := expand_path w (e_cwd (env_at w e)) p in
  snd (do_cd w e p) = Ok tt <-> (m_kind (w_m w) q = Some KDir \/ m_kind (w_m w) q = Some KFile /\ e_inter (env_at w e) = false).
Proof.
  intros He. cbn zeta. unfold do_cd, cd_core. destruct (m_kind _ _) as [ [| ]| ]; destruct (e_inter (env_at w e)); cbn; intuition discriminate.
Qed.
Lemma do_cd_file w e p : e < List.length (w_envs w) -> let q := expand_path w (e_cwd (env_at w e)) p in
  m_kind (w_m w) q = Some KFile ->
  e_cwd (env_at (fst (do_cd w e p)) e) = q /\
  snd (do_cd w e p) = (if e_inter (env_at w e) then Err (OSError EPERM) else Ok tt).
Proof.
  intros He. cbn zeta. intros H. unfold do_cd, cd_core. rewrite H.
  destruct (e_inter (env_at w e)) eqn:E; cbn [fst snd]; now rewrite set_env_at.
Qed.

Lemma cd_plain w e d p w' : is_dir (e_cwd (env_at w e)) d -> e < List.length (w_envs w) -> startswith p [c_tilde] = false ->
  do_cd w e p = (w', Ok tt) -> is_dir (e_cwd (env_at w' e)) (resolve d p).
Proof.
  intros [Hd Hc] He Hp H. apply do_cd_ok in H; [|easy]. destruct H as [_ [-> _] ].
  rewrite Hc, expand_plain by easy. split; [|easy]. now apply resolve_ok.
Qed.
Lemma cds_plain ps : forall w e d w', is_dir (e_cwd (env_at w e)) d -> e < List.length (w_envs w) ->
  Forall (fun p => startswith p [c_tilde] = false) ps -> cds w e ps = (w', Ok tt) -> is_dir (e_cwd (env_at w' e)) (fold_left resolve ps d).
Proof.
  induction ps as [|p ps IH]; cbn [cds fold_left]; intros w e d w' Hd He Hp H.
  - now injection H as <-.
  - inversion Hp; subst. destruct (do_cd w e p) as [w1 [ [] |z] ] eqn:E; [|discriminate].
    pose proof E as E'. apply do_cd_ok in E'; [|easy]. destruct E' as [_ [_ [_ [_ [_ [_ [L _] ] ] ] ] ] ].
    apply (IH w1 e (resolve d p) w'); [|now rewrite L|easy|easy].
    eapply cd_plain; eauto.
Qed.

(** Derived environments *)
Lemma expand_own w d pc : dir_ok d -> is_dir (w_pcwd w) pc -> expand_path w (w_pcwd w) (render d) = render d.
Proof.
  intros Hd [Hp1 Hp2]. rewrite Hp2. rewrite expand_plain; [|easy|apply slash_not_tilde, render_abs].
  now rewrite resolve_render.
Qed.
Lemma env_at_app w l x m : m < List.length (w_envs w) -> env_at (mkW (w_m w) (w_pcwd w) l (w_envs w ++ [x])) m = env_at w m.
Proof. intros. unfold env_at. cbn. now rewrite app_nth1. Qed.
Definition same_refs (w w' : world) : Prop :=
  forall m, m < List.length (w_envs w) -> env_at w' m = env_at w m.
Lemma do_new_ok w c ex i w' n : do_new w c ex i = (w', Ok n) ->
  n = List.length (w_envs w) /\ w_dicts w' = w_dicts w /\ w_m w' = w_m w /\ same_refs w w' /\
  e_exp (env_at w' n) = ex /\ e_inter (env_at w' n) = i /\
  e_cwd (env_at w' n) = match c with None => w_pcwd w | Some p => expand_path w (w_pcwd w) p end /\
  w_pcwd w' = (if i then match c with None => w_pcwd w | Some _ => m_real (w_m w) (e_cwd (env_at w' n)) end else w_pcwd w) /\ List.length (w_envs w') = S n.
Proof.
  unfold do_new. destruct (match c with None => _ | Some p => _ end) as [[x pc] [u|z] ] eqn:E; [|discriminate].
  intros [= <- <-].
  assert (X : env_at (mkW (w_m w) pc (w_dicts w) (w_envs w ++ [x])) (List.length (w_envs w)) = x).
  { unfold env_at. cbn. now rewrite nth_middle. }
  cbn [set_pcwd w_m w_pcwd w_dicts w_envs]. rewrite X.
  split; [easy|split; [easy|split; [easy|split] ] ].
  { intros m Hm. unfold env_at. cbn. now rewrite app_nth1. }
  rewrite app_length. cbn [List.length].
  destruct c as [p|].
  - unfold cd_core in E. cbn [e_cwd e_exp e_inter] in E. destruct (m_kind _ _) as [k|]; [|discriminate].
    destruct i; [destruct k; [|discriminate]|]; injection E as <- <- _; cbn; repeat (split; [easy|]); lia.
  - injection E as <- <- _. cbn. repeat (split; [easy|]). split; [now destruct i|lia].
Qed.
Lemma exports_same w w' x : w_dicts w' = w_dicts w -> exports w' x = exports w x.
Proof. intros H. unfold exports, exports_ref, dict_at. now rewrite H. Qed.
Lemma exports_more w w' x l : w_dicts w' = w_dicts w ++ l -> 0 < List.length (w_dicts w) -> (forall r, e_exp x = Some r -> r < List.length (w_dicts w)) ->
  exports w' x = exports w x.
Proof.
  intros H H0 Hx. unfold exports, exports_ref, dict_at. rewrite H.
  destruct (e_exp x) as [r|]; [|now rewrite app_nth1]. rewrite (app_nth1 _ _ _ (Hx r eq_refl)).
  destruct (nth r (w_dicts w) []) eqn:E; [now rewrite app_nth1|]. rewrite app_nth1 by now apply Hx. now rewrite E.
Qed.

Lemma derive_ok w e c ex i w' n d : inv w -> e < List.length (w_envs w) -> (forall r, ex = Some r -> r < List.length (w_dicts w)) ->
  do_derive w e c ex i = (w', Ok n) -> is_dir (e_cwd (env_at w e)) d ->
  n = List.length (w_envs w) /\ List.length (w_envs w') = S n /\ same_refs w w' /\
  e_inter (env_at w' n) = (match i with Some b => b | None => e_inter (env_at w e) end) /\
  (match c with
   | None => e_cwd (env_at w' n) = e_cwd (env_at w e)
   | Some p => startswith p [c_tilde] = false -> is_dir (e_cwd (env_at w' n)) (resolve d p)
   end) /\
  (match ex with
   | Some r => w_dicts w' = w_dicts w /\ e_exp (env_at w' n) = Some r
   | None => w_dicts w' = w_dicts w ++ [exports w (env_at w e)] /\ e_exp (env_at w' n) = Some (List.length (w_dicts w))
   end) /\
  (e_inter (env_at w' n) = false -> w_pcwd w' = w_pcwd w).
Proof.
  intros I0 He Hex H Hd. unfold do_derive in H. fold (derive_world w (env_at w e) ex) in H.
  destruct (derive_world w (env_at w e) ex) as [w1 ref] eqn:E1.
  assert (B : w_envs w1 = w_envs w /\ w_m w1 = w_m w /\ w_pcwd w1 = w_pcwd w /\
              match ex with Some r => w_dicts w1 = w_dicts w /\ ref = r
                          | None => w_dicts w1 = w_dicts w ++ [exports w (env_at w e)] /\ ref = List.length (w_dicts w) end).
  { destruct ex; injection E1 as <- <-; repeat split. }
  destruct B as [B1 [B2 [B3 B4] ] ].
  destruct (do_new w1 _ _ _) as [w2 [n2|z] ] eqn:E2; [|discriminate].
  apply do_new_ok in E2. destruct E2 as [D1 [D2 [D3 [D4 [D5 [D6 [D7 [D8 D9] ] ] ] ] ] ] ].
  rewrite B1 in D1.
  assert (Cw : e_cwd (env_at w2 n2) = e_cwd (env_at w e)).
  { rewrite D7. destruct Hd as [Hd Hc]. rewrite Hc. destruct (inv_p _ I0) as [dp Hp].
    apply (expand_own w1 d dp); [easy|]. now rewrite B3. }
  assert (SR : same_refs w w2).
  { intros m Hm. rewrite D4 by now rewrite B1. unfold env_at. now rewrite B1. }
  destruct c as [p|].
  - destruct (do_cd w2 n2 p) as [w3 [ [] |z] ] eqn:E3; [|discriminate]. injection H as <- <-.
    pose proof E3 as E3'.
    apply do_cd_ok in E3; [|lia]. destruct E3 as [_ [F2 [F3 [F4 [F5 [F6 [F7 [F8 F9] ] ] ] ] ] ] ].
    split; [lia|]. split; [lia|]. split; [|split; [|split; [|split] ] ].
    + intros m Hm. rewrite F6 by lia. now apply SR.
    + congruence.
    + intros Hp. apply (cd_plain w2 n2 d p w3); [now rewrite Cw|lia|easy|easy].
    + destruct ex; rewrite F3, F4, D2, D5; intuition congruence.
    + intros Hi. rewrite F9. rewrite <- F5, Hi. rewrite D8. rewrite <- D6, <- F5, Hi. congruence.
  - injection H as <- <-. split; [lia|]. split; [lia|]. split; [easy|]. split; [congruence|]. split; [easy|]. split.
    + destruct ex; rewrite D2, D5; intuition congruence.
    + intros Hi. rewrite D8, <- D6, Hi. congruence.
Qed.

(** Isolation of the variables of an environment with a private dict. *)
Definition private (w : world) (n r : nat) : Prop :=
  n < List.length (w_envs w) /\ r <> 0 /\ r < List.length (w_dicts w) /\ e_exp (env_at w n) = Some r /\
  forall m, m < List.length (w_envs w) -> m <> n -> e_exp (env_at w m) <> Some r.

Lemma exports_ref_ne w n r m : private w n r -> m < List.length (w_envs w) -> m <> n -> exports_ref w (env_at w m) <> r.
Proof.
  intros [_ [H0 [_ [_ Hx] ] ] ] Hm Hn. unfold exports_ref. specialize (Hx m Hm Hn). destruct (e_exp (env_at w m)) as [q|]; [|lia].
  destruct (dict_at w q); congruence.
Qed.
Lemma dict_set_same w r d : r < List.length (w_dicts w) -> dict_at (set_dict w r d) r = d.
Proof. intros. unfold dict_at, set_dict. cbn. now apply nth_set_same. Qed.
Lemma dict_set_other w r q d : q <> r -> dict_at (set_dict w r d) q = dict_at w q.
Proof. intros. unfold dict_at, set_dict. cbn. apply nth_set_other. lia. Qed.
Lemma do_cd_frame w e p : List.length (w_envs (fst (do_cd w e p))) = List.length (w_envs w) /\ w_dicts (fst (do_cd w e p)) = w_dicts w /\
  (forall m, m <> e -> env_at (fst (do_cd w e p)) m = env_at w m) /\
  (forall m, e_exp (env_at (fst (do_cd w e p)) m) = e_exp (env_at w m)).
Proof.
  unfold do_cd. destruct (cd_core w (env_at w e) p) as [[x pc] u] eqn:E. cbn [fst].
  assert (X : e_exp x = e_exp (env_at w e)).
  { unfold cd_core in E. destruct (m_kind _ _) as [k|]; [|now injection E as <- _ _].
    destruct (e_inter _); [destruct k|]; now injection E as <- _ _. }
  split; [cbn; now rewrite set_nth_length|]. split; [easy|]. split.
  - intros m Hm. now rewrite set_env_other.
  - intros m. destruct (Nat.eq_dec m e) as [->|Hm]; [|now rewrite set_env_other].
    destruct (lt_dec e (List.length (w_envs w))); [now rewrite set_env_at|].
    unfold env_at, set_env. cbn. rewrite !nth_overflow; [easy|lia|rewrite set_nth_length; lia].
Qed.
Lemma do_new_frame w c ex i : w_dicts (fst (do_new w c ex i)) = w_dicts w /\
  (forall m, m < List.length (w_envs w) -> env_at (fst (do_new w c ex i)) m = env_at w m) /\
  (List.length (w_envs (fst (do_new w c ex i))) = List.length (w_envs w) \/
   List.length (w_envs (fst (do_new w c ex i))) = S (List.length (w_envs w)) /\ e_exp (env_at (fst (do_new w c ex i)) (List.length (w_envs w))) = ex).
Proof.
  destruct (do_new w c ex i) as [w' [n|z] ] eqn:E.
  - apply do_new_ok in E. cbn [fst]. destruct E as [D1 [D2 [D3 [D4 [D5 [D6 [D7 [D8 D9] ] ] ] ] ] ] ].
    split; [easy|]. split; [easy|]. right. subst n. easy.
  - unfold do_new in E. destruct (match c with None => _ | Some p => _ end) as [[x pc] [u|u] ]; [discriminate|].
    injection E as <- _. cbn. split; [easy|]. split; [easy|]. now left.
Qed.
Lemma do_derive_frame w e c ex i : exists l,
  w_dicts (fst (do_derive w e c ex i)) = w_dicts w ++ l /\
  (forall m, m < List.length (w_envs w) -> env_at (fst (do_derive w e c ex i)) m = env_at w m) /\
  (List.length (w_envs (fst (do_derive w e c ex i))) = List.length (w_envs w) \/
   List.length (w_envs (fst (do_derive w e c ex i))) = S (List.length (w_envs w)) /\
   e_exp (env_at (fst (do_derive w e c ex i)) (List.length (w_envs w))) = Some (match ex with Some r => r | None => List.length (w_dicts w) end)).
Proof.
  unfold do_derive. fold (derive_world w (env_at w e) ex).
  destruct (derive_world w (env_at w e) ex) as [w1 ref] eqn:E1.
  assert (B : w_envs w1 = w_envs w /\ ref = (match ex with Some r => r | None => List.length (w_dicts w) end) /\ exists l, w_dicts w1 = w_dicts w ++ l).
  { destruct ex; injection E1 as <- <-; cbn; repeat split; [exists []; now rewrite app_nil_r|eauto]. }
  destruct B as [B1 [B2 [l B3] ] ]. exists l.
  match goal with |- context [do_new w1 ?a ?b ?c] => pose proof (do_new_frame w1 a b c) as F; destruct (do_new w1 a b c) as [w2 [n|z] ] eqn:E2 end;
  cbn [fst] in F; rewrite B1 in F; destruct F as [F1 [F2 F3] ].
  2:{ cbn. split; [congruence|]. split; [|now rewrite <- B2]. intros m Hm. rewrite F2 by easy. unfold env_at. now rewrite B1. }
  assert (G : forall m, m < List.length (w_envs w) -> env_at w2 m = env_at w m).
  { intros m Hm. rewrite F2 by easy. unfold env_at. now rewrite B1. }
  apply do_new_ok_len in E2. rewrite B1 in E2.
  destruct c as [p|]; [|cbn; split; [congruence|]; split; [easy|now rewrite <- B2] ].
  pose proof (do_cd_frame w2 n p) as K. destruct (do_cd w2 n p) as [w3 u]. cbn [fst] in K. destruct K as [K1 [K2 [K3 K4] ] ].
  assert (J : w_dicts w3 = w_dicts w ++ l) by congruence.
  replace (fst (match u with Ok _ => (w3, Ok n) | Err z => (w3, Err z) end)) with w3 by now destruct u.
  split; [easy|]. split.
  - intros m Hm. rewrite K3 by lia. now apply G.
  - rewrite K1, K4, <- B2. easy.
Qed.

(** One step leaves a private environment alone, except for its own changes. *)
Definition grow_frame (w w' : world) (l : list vars) (x : option nat) : Prop :=
  w_dicts w' = w_dicts w ++ l /\ (forall m, m < List.length (w_envs w) -> e_exp (env_at w' m) = e_exp (env_at w m)) /\
  (List.length (w_envs w') = List.length (w_envs w) \/ List.length (w_envs w') = S (List.length (w_envs w)) /\ e_exp (env_at w' (List.length (w_envs w))) = x).
Lemma grow_private w w' l x n r : private w n r -> grow_frame w w' l x -> x <> Some r -> private w' n r /\ dict_at w' r = dict_at w r.
Proof.
  intros [P1 [P2 [P3 [P4 P5] ] ] ] [G1 [G2 G3] ] Hx. split.
  - split; [lia|]. split; [easy|]. split; [rewrite G1, app_length; lia|]. split; [now rewrite G2|].
    intros m Hm Hn. destruct (Nat.eq_dec m (List.length (w_envs w))) as [->|].
    + destruct G3 as [G3|[_ G3] ]; [lia|congruence].
    + rewrite G2 by lia. apply P5; lia.
  - unfold dict_at. rewrite G1. now rewrite app_nth1.
Qed.
Lemma step_private w o n r : private w n r -> op_ok w o -> ~ mentions o r -> dict_at w r <> [] ->
  private (step w o) n r /\ dict_at (step w o) r = own_vars n (dict_at w r) o.
Proof.
  intros P Ho Hm Hne. pose proof P as [P1 [P2 [P3 [P4 P5] ] ] ].
  assert (SD : forall q d, q <> r -> private (set_dict w q d) n r /\ dict_at (set_dict w q d) r = dict_at w r).
  { intros q d Hq. split; [|now rewrite dict_set_other by lia].
    split; [easy|]. split; [easy|]. split; [cbn; now rewrite set_nth_length|]. split; easy. }
  assert (SO : forall d, private (set_dict w r d) n r /\ dict_at (set_dict w r d) r = d).
  { intros d. split; [|now apply dict_set_same].
    split; [easy|]. split; [easy|]. split; [cbn; now rewrite set_nth_length|]. split; easy. }
  assert (RN : exports_ref w (env_at w n) = r).
  { unfold exports_ref. rewrite P4. destruct (dict_at w r); congruence. }
  destruct o; cbn [step own_vars mentions op_ok] in *.
  - destruct (do_new_frame w cwd ex inter) as [F1 [F2 F3] ]. apply (grow_private w _ [] ex); [easy| |destruct ex; congruence].
    split; [now rewrite app_nil_r|]. split; [|easy]. intros m Hk. now rewrite F2.
  - destruct (do_derive_frame w e cwd ex inter) as [l [F1 [F2 F3] ] ].
    eapply grow_private; [easy| |].
    + split; [exact F1|]. split; [|exact F3]. intros m Hk. now rewrite F2.
    + destruct ex; [congruence|]. intros [= E]. lia.
  - destruct (do_cd_frame w e p) as [F1 [F2 [F3 F4] ] ]. apply (grow_private w _ [] None); [easy| |easy].
    split; [now rewrite app_nil_r|]. split; [|now left]. easy.
  - destruct (do_cd_frame w e (cd_path args)) as [F1 [F2 [F3 F4] ] ]. apply (grow_private w _ [] None); [easy| |easy].
    split; [now rewrite app_nil_r|]. split; [|now left]. easy.
  - destruct (Nat.eqb_spec e n) as [->|Hn].
    + rewrite RN. apply SO.
    + apply SD. now apply (exports_ref_ne w n).
  - destruct (Nat.eqb_spec e n) as [->|Hn].
    + rewrite RN. apply SO.
    + apply SD. now apply (exports_ref_ne w n).
  - apply (grow_private w _ [d] None); [easy| |easy]. split; [easy|]. split; [easy|now left].
  - now apply SD.
  - easy.
  - destruct (m_kind _ _) as [ [| ]| ]; easy.
Qed.
Lemma step_private_others w o n r m : inv w -> private w n r -> targets o n -> dict_at w r <> [] -> m < List.length (w_envs w) -> m <> n ->
  same_view w (step w o) m.
Proof.
  intros I0 P Ht Hne Hm Hn. pose proof P as [P1 [P2 [P3 [P4 P5] ] ] ].
  assert (RN : exports_ref w (env_at w n) = r).
  { unfold exports_ref. rewrite P4. destruct (dict_at w r); congruence. }
  assert (RM : exports_ref w (env_at w m) <> r) by now apply (exports_ref_ne w n).
  assert (SD : forall d, same_view w (set_dict w r d) m).
  { intros d. split; [easy|]. unfold exports, exports_ref. change (env_at (set_dict w r d) m) with (env_at w m).
    specialize (P5 m Hm Hn). destruct (e_exp (env_at w m)) as [q|]; [|apply dict_set_other; lia].
    rewrite (dict_set_other w r q) by congruence. destruct (dict_at w q) eqn:Eq.
    - apply dict_set_other; lia.
    - apply dict_set_other. congruence. }
  destruct o; cbn [targets step] in *; try contradiction; subst e.
  - destruct (do_cd_frame w n p) as [F1 [F2 [F3 F4] ] ]. split; [now rewrite F3|]. rewrite F3 by easy. now apply exports_same.
  - destruct (do_cd_frame w n (cd_path args)) as [F1 [F2 [F3 F4] ] ]. split; [now rewrite F3|]. rewrite F3 by easy. now apply exports_same.
  - rewrite RN. apply SD.
  - rewrite RN. apply SD.
Qed.
Lemma step_cwd_other w o n : n < List.length (w_envs w) -> ~ targets o n -> e_cwd (env_at (step w o) n) = e_cwd (env_at w n).
Proof.
  intros Hn Ht. destruct o; cbn [targets step] in *; try easy.
  - destruct (do_new_frame w cwd ex inter) as [_ [F _] ]. now rewrite F.
  - destruct (do_derive_frame w e cwd ex inter) as [l [_ [F _] ] ]. now rewrite F.
  - destruct (do_cd_frame w e p) as [_ [_ [F _] ] ]. rewrite F; [easy|lia].
  - destruct (do_cd_frame w e (cd_path args)) as [_ [_ [F _] ] ]. rewrite F; [easy|lia].
  - destruct (m_kind _ _) as [ [| ]| ]; easy.
Qed.
Lemma step_envs_len w o : List.length (w_envs w) <= List.length (w_envs (step w o)).
Proof.
  destruct o; cbn [step].
  - destruct (do_new_frame w cwd ex inter) as [_ [_ F] ]. lia.
  - destruct (do_derive_frame w e cwd ex inter) as [l [_ [_ F] ] ]. lia.
  - destruct (do_cd_frame w e p) as [F _]. lia.
  - destruct (do_cd_frame w e (cd_path args)) as [F _]. lia.
  - easy.
  - easy.
  - easy.
  - easy.
  - easy.
  - destruct (m_kind _ _) as [ [| ]| ]; easy.
Qed.
Lemma private_exports w n r : private w n r -> dict_at w r <> [] -> exports w (env_at w n) = dict_at w r.
Proof. intros [_ [_ [_ [P _] ] ] ] H. unfold exports, exports_ref. rewrite P. destruct (dict_at w r) eqn:E; [congruence|]. easy. Qed.

Lemma firstn_all_step {A B} (f : B -> A -> B) (P : B -> Prop) o ops v :
  (forall k, P (fold_left f (firstn k (o :: ops)) v)) -> P v /\ P (f v o) /\ forall k, P (fold_left f (firstn k ops) (f v o)).
Proof. intros H. split; [apply (H 0)|]. split; [apply (H 1)|]. intros k. apply (H (S k)). Qed.
Lemma private_history ops : forall w n r, private w n r -> history_ok w ops r ->
  (forall k, fold_left (own_vars n) (firstn k ops) (dict_at w r) <> []) ->
  private (steps w ops) n r /\ dict_at (steps w ops) r = fold_left (own_vars n) ops (dict_at w r).
Proof.
  induction ops as [|o ops IH]; intros w n r P Ho H; cbn [steps fold_left]; [easy|].
  destruct Ho as [Ho [Hm Hr] ]. apply (firstn_all_step (own_vars n) (fun v => v <> [])) in H. destruct H as [H1 [H2 H3] ].
  destruct (step_private w o n r P Ho Hm H1) as [Q1 Q2].
  fold (steps (step w o) ops). rewrite <- Q2 in H3 |- *. now apply IH.
Qed.
Lemma private_others ops : forall w n r m, inv w -> private w n r -> history_ok w ops r -> Forall (fun o => targets o n) ops ->
  (forall k, fold_left (own_vars n) (firstn k ops) (dict_at w r) <> []) -> m < List.length (w_envs w) -> m <> n ->
  same_view w (steps w ops) m.
Proof.
  induction ops as [|o ops IH]; intros w n r m I0 P Ho Ht H Hm Hn; cbn [steps fold_left]; [easy|].
  destruct Ho as [Ho [Hk Hr] ]. apply (firstn_all_step (own_vars n) (fun v => v <> [])) in H. destruct H as [H1 [H2 H3] ].
  inversion Ht; subst.
  destruct (step_private w o n r P Ho Hk H1) as [Q1 Q2]. rewrite <- Q2 in H3.
  destruct (step_private_others w o n r m I0 P H4 H1 Hm Hn) as [V1 V2].
  destruct (IH (step w o) n r m (step_inv _ _ I0 Ho) Q1 Hr H5 H3) as [V3 V4]; [pose proof (step_envs_len w o); lia|easy|].
  fold (steps (step w o) ops). split; congruence.
Qed.
Lemma history_cwd ops : forall w r n, history_ok w ops r -> n < List.length (w_envs w) -> Forall (fun o => ~ targets o n) ops ->
  e_cwd (env_at (steps w ops) n) = e_cwd (env_at w n).
Proof.
  induction ops as [|o ops IH]; intros w r n Ho Hn Ht; cbn [steps fold_left]; [easy|].
  destruct Ho as [Ho [Hk Hr] ]. inversion Ht; subst. fold (steps (step w o) ops).
  rewrite (IH _ r) by (easy || pose proof (step_envs_len w o); lia). now apply step_cwd_other.
Qed.
Lemma own_id n ops v : Forall (fun o => ~ targets o n) ops -> fold_left (own_vars n) ops v = v.
Proof.
  intros H. revert v. induction H as [|o ops H F IH]; intros v; cbn; [easy|]. rewrite IH.
  destruct o; cbn in *; try easy; destruct (Nat.eqb_spec e n); easy.
Qed.
Lemma Forall_firstn {A} (P : A -> Prop) k l : Forall P l -> Forall P (firstn k l).
Proof. intros F. revert k. induction F; intros [|k]; cbn; constructor; auto. Qed.

(** What deriving gives *)
Lemma derive_private w e c i w' n : inv w -> e < List.length (w_envs w) -> do_derive w e c None i = (w', Ok n) ->
  private w' n (List.length (w_dicts w)) /\ dict_at w' (List.length (w_dicts w)) = exports w (env_at w e) /\
  exports w' (env_at w' n) = exports w (env_at w e) /\
  (forall m, m < List.length (w_envs w) -> same_view w w' m) /\ n = List.length (w_envs w).
Proof.
  intros I0 He H. destruct (proj1 (env_ok_at w e I0 He)) as [d Hd].
  destruct (derive_ok w e c None i w' n d I0 He ltac:(discriminate) H Hd) as [D1 [D2 [D3 [D4 [D5 [ [D6 D7] D8] ] ] ] ] ].
  assert (DA : dict_at w' (List.length (w_dicts w)) = exports w (env_at w e)).
  { unfold dict_at. rewrite D6. now rewrite nth_middle. }
  split; [|split; [easy|split; [|split] ] ].
  - split; [lia|]. split; [pose proof (inv_d _ I0); lia|]. split; [rewrite D6, app_length; cbn; lia|]. split; [easy|].
    intros m Hm Hn. rewrite D3 by lia. intros E. apply (env_ok_at w m I0) in E; lia.
  - unfold exports at 1, exports_ref. rewrite D7, DA. destruct (exports w (env_at w e)) eqn:E; [|easy].
    unfold dict_at. rewrite D6, app_nth1 by apply I0. change (dict_at w 0 = []). unfold exports, exports_ref in E.
    destruct (e_exp (env_at w e)) as [r|]; [|easy]. destruct (dict_at w r) eqn:F; congruence.
  - intros m Hm. split; rewrite D3 by easy; [easy|]. eapply exports_more; [exact D6|apply I0|]. apply (env_ok_at w m I0 Hm).
  - easy.
Qed.
Lemma derived_history w e c i w' n ops : inv w -> e < List.length (w_envs w) -> do_derive w e c None i = (w', Ok n) ->
  history_ok w' ops (List.length (w_dicts w)) ->
  (forall k, fold_left (own_vars n) (firstn k ops) (exports w (env_at w e)) <> []) ->
  exports (steps w' ops) (env_at (steps w' ops) n) = fold_left (own_vars n) ops (exports w (env_at w e)).
Proof.
  intros I0 He H Ho Hne. destruct (derive_private w e c i w' n I0 He H) as [P [Q _] ].
  rewrite <- Q in Hne |- *. destruct (private_history ops w' n _ P Ho Hne) as [P' D'].
  rewrite <- D'. apply private_exports; [easy|]. rewrite D'. specialize (Hne (List.length ops)). now rewrite firstn_all in Hne.
Qed.
Lemma derived_unaffected w e c i w' n ops : inv w -> e < List.length (w_envs w) -> do_derive w e c None i = (w', Ok n) ->
  exports w (env_at w e) <> [] ->
  history_ok w' ops (List.length (w_dicts w)) -> Forall (fun o => ~ targets o n) ops -> same_view w' (steps w' ops) n.
Proof.
  intros I0 He H Hx Ho Ht. destruct (derive_private w e c i w' n I0 He H) as [P [Q [X [_ N0] ] ] ]. split.
  - eapply history_cwd; eauto. apply P.
  - rewrite X. erewrite derived_history; eauto; [now apply own_id|]. intros k. rewrite own_id; [easy|]. now apply Forall_firstn.
Qed.
Lemma derive_inv_ok w e c ex i w' n : inv w -> e < List.length (w_envs w) -> (forall r, ex = Some r -> r < List.length (w_dicts w)) ->
  do_derive w e c ex i = (w', Ok n) -> inv w'.
Proof. intros I0 He Hex H. pose proof (do_derive_inv w e c ex i I0 He Hex) as K. now rewrite H in K. Qed.
Lemma derived_changes_nothing_else w e c i w' n ops m : inv w -> e < List.length (w_envs w) -> do_derive w e c None i = (w', Ok n) ->
  history_ok w' ops (List.length (w_dicts w)) -> Forall (fun o => targets o n) ops ->
  (forall k, fold_left (own_vars n) (firstn k ops) (exports w (env_at w e)) <> []) ->
  m < List.length (w_envs w) -> same_view w (steps w' ops) m.
Proof.
  intros I0 He H Ho Ht Hne Hm. destruct (derive_private w e c i w' n I0 He H) as [P [Q [X [V N0] ] ] ].
  destruct (V m Hm) as [V1 V2]. rewrite <- Q in Hne.
  assert (I1 : inv w') by (apply (derive_inv_ok w e c None i w' n I0 He); [discriminate|exact H]).
  assert (L : n < List.length (w_envs w')) by apply P.
  destruct (private_others ops w' n _ m I1 P Ho Ht Hne) as [V3 V4]; [lia|lia|]. split; congruence.
Qed.
Lemma derive_missing w e c ex i d : inv w -> is_dir (e_cwd (env_at w e)) d -> m_kind (w_m w) (e_cwd (env_at w e)) = None ->
  snd (do_derive w e c ex i) = Err (OSError ENOENT).
Proof.
  intros I0 [Hd Hc] Hk. unfold do_derive. fold (derive_world w (env_at w e) ex).
  destruct (derive_world w (env_at w e) ex) as [w1 ref] eqn:E1.
  assert (B : w_m w1 = w_m w /\ w_pcwd w1 = w_pcwd w) by (destruct ex; now injection E1 as <- _).
  destruct B as [B1 B2]. unfold do_new, cd_core. cbn [e_cwd]. destruct (inv_p _ I0) as [dp Hp].
  rewrite Hc at 1. rewrite (expand_own w1 d dp) by (try rewrite B2; easy). rewrite B1, <- Hc, Hk. easy.
Qed.
(** Explicit variables *)
Lemma new_exports w c r i w' n : do_new w c (Some r) i = (w', Ok n) ->
  (dict_at w r <> [] -> exports w' (env_at w' n) = dict_at w r) /\ (dict_at w r = [] -> exports w' (env_at w' n) = dict_at w 0).
Proof.
  intros H. apply do_new_ok in H. destruct H as [_ [D2 [_ [_ [D5 _] ] ] ] ].
  unfold exports, exports_ref. rewrite D5. unfold dict_at. rewrite D2. destruct (nth r (w_dicts w) []) eqn:E; split; congruence || easy.
Qed.
Lemma derive_exports w e c r i w' n : inv w -> e < List.length (w_envs w) -> r < List.length (w_dicts w) -> do_derive w e c (Some r) i = (w', Ok n) ->
  (dict_at w r <> [] -> exports w' (env_at w' n) = dict_at w r) /\ (dict_at w r = [] -> exports w' (env_at w' n) = dict_at w 0).
Proof.
  intros I0 He Hr H. destruct (proj1 (env_ok_at w e I0 He)) as [d Hd].
  destruct (derive_ok w e c (Some r) i w' n d I0 He ltac:(now intros ? [= <-]) H Hd) as [D1 [D2 [D3 [D4 [D5 [ [D6 D7] D8] ] ] ] ] ].
  unfold exports, exports_ref. rewrite D7. unfold dict_at. rewrite D6. destruct (nth r (w_dicts w) []) eqn:E; split; congruence || easy.
Qed.

(** cd with several operands *)
Lemma initial_app a b : startswith b [c_slash] = false -> a <> [] -> (ends_slash a = true \/ b = []) -> initial_slashes (a ++ b) = initial_slashes a.
Proof.
  intros Hb Ha He. destruct b as [|y b]; [now rewrite app_nil_r|]. rewrite startswith_cons, startswith_nil, andb_true_r in Hb.
  unfold initial_slashes. destruct a as [|a1 [|a2 [|a3 a] ] ]; [congruence|..]; cbn [app]; rewrite ?startswith_cons, ?startswith_nil, ?Hb; cbn [andb negb];
  rewrite ?andb_true_r, ?andb_false_r; try easy.
Qed.
Lemma initial_mid a b : ends_slash a = false -> a <> [] -> initial_slashes (a ++ b) = initial_slashes a.
Proof.
  intros He Ha. unfold initial_slashes. 
  destruct a as [|a1 [|a2 [|a3 a] ] ]; [congruence|..]; cbn [app].
  - change [a1] with ([] ++ [a1]) in He. rewrite ends_slash_app, N.eqb_sym in He. rewrite !startswith_cons, He. easy.
  - change [a1; a2] with ([a1] ++ [a2]) in He. rewrite ends_slash_app, N.eqb_sym in He. rewrite !startswith_cons, !startswith_nil, He. cbn. now rewrite ?andb_false_r.
  - rewrite !startswith_cons, !startswith_nil. easy.
Qed.
Lemma startswith_app a b : a <> [] -> startswith (a ++ b) [c_slash] = startswith a [c_slash].
Proof. destruct a; [congruence|]. cbn [app]. now rewrite !startswith_cons, !startswith_nil. Qed.
Lemma walk_trail d a : walk d (a ++ [c_slash]) = walk d a.
Proof. rewrite walk_app_slash. now rewrite walk_empty. Qed.
Lemma resolve_join d a b : resolve d (path_join a b) = resolve (resolve d a) b.
Proof.
  unfold path_join. destruct (startswith b [c_slash]) eqn:Eb.
  { unfold resolve. now rewrite Eb. }
  destruct a as [|c a0]; [unfold resolve at 3; rewrite (walk_empty d); easy|].
  set (a := c :: a0). assert (Ha : a <> []) by discriminate. clearbody a. clear c a0.
  destruct (ends_slash a) eqn:Ea.
  - destruct (@exists_last _ a Ha) as [a' [c Hc] ]. assert (c = c_slash) as ->.
    { rewrite Hc, ends_slash_app in Ea. now apply N.eqb_eq. }
    unfold resolve. rewrite startswith_app, Eb by easy.
    assert (R : root_of (a ++ b) = root_of a) by (unfold root_of; rewrite initial_app; auto).
    assert (W : forall d, walk d (a ++ b) = walk (walk d a) b).
    { intros d0. rewrite Hc, <- app_assoc. cbn [app]. now rewrite walk_app_slash, walk_trail. }
    rewrite R, !W. now destruct (startswith a [c_slash]).
  - unfold resolve. rewrite startswith_app, Eb by easy.
    assert (R : root_of (a ++ [c_slash] ++ b) = root_of a) by (unfold root_of; rewrite initial_mid; auto).
    rewrite R. cbn [app]. rewrite !walk_app_slash. now destruct (startswith a [c_slash]).
Qed.
Lemma resolve_join_all ps : forall d a, resolve d (path_join_all a ps) = fold_left resolve ps (resolve d a).
Proof. unfold path_join_all. induction ps as [|p ps IH]; intros d a; cbn [fold_left]; [easy|]. now rewrite IH, resolve_join. Qed.
Lemma join_tilde a b : startswith (path_join a b) [c_tilde] = true -> startswith a [c_tilde] = true \/ startswith b [c_tilde] = true.
Proof.
  unfold path_join. destruct (startswith b [c_slash]); [auto|]. destruct a as [|c a]; [auto|].
  intros H. left. destruct (ends_slash _); cbn [app] in H; rewrite startswith_cons, startswith_nil in H |- *; exact H.
Qed.
Lemma join_all_tilde ps : forall a, startswith a [c_tilde] = false -> Forall (fun p => startswith p [c_tilde] = false) ps -> startswith (path_join_all a ps) [c_tilde] = false.
Proof.
  unfold path_join_all. induction ps as [|p ps IH]; intros a Ha Hp; cbn [fold_left]; [easy|]. inversion Hp; subst. apply IH; [|easy].
  destruct (startswith (path_join a p) [c_tilde]) eqn:E; [|easy]. apply join_tilde in E. intuition congruence.
Qed.
Lemma cd_replace_tilde a : startswith a [c_tilde] = false -> startswith (cd_replace a) [c_tilde] = false.
Proof. unfold cd_replace. destruct (text_eqb a (txt "PARENT")); [easy|]. now destruct (text_eqb a (txt "ROOT")). Qed.
Lemma cd_command w e d args w' : is_dir (e_cwd (env_at w e)) d -> e < List.length (w_envs w) -> args <> [] ->
  Forall (fun p => startswith p [c_tilde] = false) args ->
  do_cd w e (cd_path args) = (w', Ok tt) -> is_dir (e_cwd (env_at w' e)) (fold_left resolve (map cd_replace args) d).
Proof.
  intros Hd He Ha Ht H. destruct args as [|a args]; [congruence|]. inversion Ht; subst.
  cbn [map fold_left]. rewrite <- resolve_join_all. apply (cd_plain w); try easy.
  cbn [cd_path]. apply join_all_tilde; [now apply cd_replace_tilde|].
  apply Forall_map. eapply Forall_impl; [|eassumption]. intros; now apply cd_replace_tilde.
Qed.
Lemma operand_replace a : cd_replace a = operand a.
Proof.
  unfold cd_replace, operand. destruct (text_eqb_spec a (txt "PARENT")), (list_eq_dec N.eq_dec a (txt "PARENT")); try congruence; [reflexivity|].
  destruct (text_eqb_spec a (txt "ROOT")), (list_eq_dec N.eq_dec a (txt "ROOT")); try congruence; reflexivity.
Qed.
Lemma cd_command_operands w e d args w' : is_dir (e_cwd (env_at w e)) d -> e < List.length (w_envs w) -> args <> [] ->
  Forall (fun p => startswith p [c_tilde] = false) args ->
  do_cd w e (cd_path args) = (w', Ok tt) -> is_dir (e_cwd (env_at w' e)) (fold_left resolve (map operand args) d).
Proof. intros. rewrite <- (map_ext _ _ operand_replace). eapply cd_command; eauto. Qed.
Lemma cd_home w e h dh w' : inv w -> e < List.length (w_envs w) -> m_home (w_m w) [] = Some h -> is_dir h dh -> d_names dh <> [] ->
  do_cd w e (cd_path []) = (w', Ok tt) -> e_cwd (env_at w' e) = h.
Proof.
  intros I0 He Hh Hd Hn H. apply do_cd_ok in H; [|easy]. destruct H as [_ [-> _] ]. destruct (inv_p _ I0) as [dp Hp].
  change (cd_path []) with (c_tilde :: [] ++ []). rewrite (expand_home w _ [] [] h dh dp); auto. rewrite walk_empty. now destruct Hd as [_ ->].
Qed.
Lemma cd_existing w e d p : is_dir (e_cwd (env_at w e)) d -> e < List.length (w_envs w) -> startswith p [c_tilde] = false ->
  m_kind (w_m w) (render (resolve d p)) = Some KDir ->
  exists w', do_cd w e p = (w', Ok tt) /\ e_cwd (env_at w' e) = render (resolve d p) /\ w_dicts w' = w_dicts w /\
    (forall m, m <> e -> env_at w' m = env_at w m) /\
    w_pcwd w' = (if e_inter (env_at w e) then m_real (w_m w) (render (resolve d p)) else w_pcwd w).
Proof.
  intros [Hd Hc] He Hp K. pose proof (do_cd_err_iff w e p He) as E. cbn zeta in E. rewrite Hc, expand_plain in E by easy.
  destruct (do_cd w e p) as [w' u] eqn:D. cbn [snd] in E. destruct E as [_ E]. rewrite E in D by now left. exists w'. split; [now rewrite E by now left|].
  apply do_cd_ok in D; [|easy]. rewrite Hc, expand_plain in D by easy. intuition.
Qed.
Lemma cd_to_file w e d p : is_dir (e_cwd (env_at w e)) d -> e < List.length (w_envs w) -> startswith p [c_tilde] = false ->
  m_kind (w_m w) (render (resolve d p)) = Some KFile ->
  e_cwd (env_at (fst (do_cd w e p)) e) = render (resolve d p) /\
  snd (do_cd w e p) = (if e_inter (env_at w e) then Err (OSError EPERM) else Ok tt).
Proof.
  intros [Hd Hc] He Hp K. pose proof (do_cd_file w e p He) as E. cbn zeta in E. rewrite Hc, expand_plain in E by easy. now apply E.
Qed.
Lemma derive_copy w e i w' n : reachable w -> e < List.length (w_envs w) -> do_derive w e None None i = (w', Ok n) ->
  e_cwd (env_at w' n) = e_cwd (env_at w e) /\ exports w' (env_at w' n) = exports w (env_at w e) /\
  (forall m, m < List.length (w_envs w) -> same_view w w' m) /\ n = List.length (w_envs w).
Proof.
  intros R He H. apply reachable_inv in R. destruct (derive_private w e None i w' n R He H) as [_ [_ [A [B C] ] ] ].
  split; [|easy]. destruct (proj1 (env_ok_at w e R He)) as [d Hd].
  destruct (derive_ok w e None None i w' n d R He ltac:(discriminate) H Hd) as [_ [_ [_ [_ [D _] ] ] ] ]. exact D.
Qed.
Lemma derive_dir w e p ex i w' n d : reachable w -> e < List.length (w_envs w) ->
  (forall r, ex = Some r -> r < List.length (w_dicts w)) ->
  is_dir (e_cwd (env_at w e)) d -> startswith p [c_tilde] = false -> do_derive w e (Some p) ex i = (w', Ok n) ->
  is_dir (e_cwd (env_at w' n)) (resolve d p) /\ forall m, m < List.length (w_envs w) -> env_at w' m = env_at w m.
Proof.
  intros R He Hex Hd Hp H. apply reachable_inv in R.
  destruct (derive_ok w e (Some p) ex i w' n d R He Hex H Hd) as [_ [_ [S0 [_ [D _] ] ] ] ]. split; [now apply D|exact S0].
Qed.
Lemma derive_gone w e c ex i : reachable w -> e < List.length (w_envs w) -> m_kind (w_m w) (e_cwd (env_at w e)) = None ->
  snd (do_derive w e c ex i) = Err (OSError ENOENT).
Proof.
  intros R He H. apply reachable_inv in R. destruct (proj1 (env_ok_at w e R He)) as [d Hd]. now apply (derive_missing w e c ex i d).
Qed.
