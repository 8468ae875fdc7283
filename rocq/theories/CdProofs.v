From Verif Require Import Py PathModel PathSpec PathProofs EnvModel EnvSpec EnvProofs ExpandModel CommandModel CommandSpec CommandProofs CdModel CdSpec.

Lemma words_object args : words_of (cd_object args) = args.
Proof. unfold words_of, cd_object. cbn. rewrite map_map. apply map_id. Qed.
Lemma words_snoc args n : words_of (mkCmd (CBuiltin (txt "cd")) (c_arg (cd_object args) ++ [AStr n])) = args ++ [n].
Proof. unfold words_of, cd_object. cbn. rewrite map_app, map_map, map_id. reflexivity. Qed.
Lemma tmem_In t l : tmem t l = true <-> In t l.
Proof. unfold tmem. rewrite existsb_exists. split; [intros (x & I & E); destruct (text_eqb_spec t x); [now subst|discriminate]|intros I; exists t; split; [exact I|apply text_eqb_refl] ]. Qed.
Lemma choose_plain w e args n : ~ In n reserved -> choose w e args n = Some (do_cd w e (cd_path (args ++ [n]))).
Proof.
  intros R. unfold choose, get_attr. destruct (tmem n (class_attrs (c_cls (cd_object args)))) eqn:T.
  - apply tmem_In in T. exfalso. apply R. vm_compute in T. vm_compute. tauto.
  - unfold construct, cd_object at 1. cbn [c_cls bind_res]. unfold cd_run. rewrite words_snoc. reflexivity.
Qed.
Lemma choose_attr w e args : choose w e args (txt "name") = None.
Proof. reflexivity. Qed.
Lemma cd_path_snoc args n : args <> [] -> cd_path (args ++ [n]) = path_join (cd_path args) (cd_replace n).
Proof. intros H. destruct args as [|a r]; [congruence|]. cbn. unfold path_join_all. rewrite map_app, fold_left_app. reflexivity. Qed.
Lemma cd_path_one n : cd_path [n] = cd_replace n.
Proof. reflexivity. Qed.
Lemma join_nonempty a b : a <> [] \/ b <> [] -> path_join a b <> [].
Proof.
  unfold path_join. destruct (startswith b [c_slash]) eqn:E; [apply starts_slash in E as [r ->]; discriminate|]. destruct a as [|c a]; [intros [H|H]; congruence|]. intros _. destruct (ends_slash _); discriminate.
Qed.
Lemma cd_replace_nonempty a : a <> [] -> cd_replace a <> [].
Proof. unfold cd_replace. destruct (text_eqb a (txt "PARENT")); [discriminate|]. destruct (text_eqb a (txt "ROOT")); [discriminate|auto]. Qed.
Lemma join_all_nonempty ps : forall a, a <> [] \/ (exists p, In p ps /\ p <> []) -> path_join_all a ps <> [].
Proof.
  unfold path_join_all. induction ps as [|p ps IH]; intros a H; cbn [fold_left]; [destruct H as [H|(p & [] & _)]; exact H|].
  apply IH. destruct H as [H|(p' & [->|I] & N)]; [left; apply join_nonempty; auto|left; apply join_nonempty; auto|right; eauto].
Qed.
Lemma cd_path_nonempty args : args <> [] -> (exists a, In a args /\ a <> []) -> cd_path args <> [].
Proof.
  destruct args as [|a r]; [congruence|]. intros _ (x & [->|I] & N); cbn [cd_path]; apply join_all_nonempty; [left; now apply cd_replace_nonempty|].
  right. exists (cd_replace x). split; [now apply in_map|now apply cd_replace_nonempty].
Qed.

Lemma ends_app_r a b : b <> [] -> ends_slash (a ++ b) = ends_slash b.
Proof. intros H. destruct (@exists_last _ b H) as [b' [c ->] ]. rewrite app_assoc, !ends_slash_app. reflexivity. Qed.
Lemma before_slash_split s : forall n r, before_slash s = (n, r) -> s = n ++ r /\ ~ In c_slash n /\ (r = [] \/ is_abs r).
Proof.
  induction s as [|c s IH]; cbn [before_slash]; intros n r E; [injection E as <- <-; cbn; tauto|].
  destruct (N.eqb_spec c c_slash) as [->|Nc]; [injection E as <- <-; split; [reflexivity|split; [intros []|right; now exists s] ]|].
  destruct (before_slash s) as [a b] eqn:Eb. injection E as <- <-. destruct (IH _ _ eq_refl) as (A & B & C). split; [cbn; congruence|]. split; [intros [H|H]; congruence|exact C].
Qed.
Lemma rstrip_no_slash h : ends_slash (rstrip_slash h) = false.
Proof.
  unfold rstrip_slash, ends_slash. rewrite rev_involutive. induction (rev h) as [|c l IH]; [reflexivity|]. cbn [lstrip_slash]. destruct (N.eqb_spec c c_slash) as [->|Nc]; [exact IH|]. now apply N.eqb_neq.
Qed.
Lemma no_slash_ends n : ~ In c_slash n -> ends_slash n = false.
Proof.
  intros H. destruct n as [|c n]; [reflexivity|]. destruct (@exists_last _ (c :: n)) as [l [x E] ]; [discriminate|]. rewrite E in *. rewrite ends_slash_app. apply N.eqb_neq. intros ->. apply H, in_or_app. right. now left.
Qed.
Lemma expanduser_join h p b : startswith p [c_tilde] = true -> startswith b [c_slash] = false ->
  expanduser h (path_join p b) = path_join (expanduser h p) b.
Proof.
  intros Hp Hb. destruct p as [|c r]; [discriminate|]. rewrite startswith_cons, startswith_nil, andb_true_r in Hp. apply N.eqb_eq in Hp. subst c.
  destruct (before_slash r) as [n rest] eqn:Er. destruct (before_slash_split _ _ _ Er) as (Sr & Nn & Rr).
  unfold path_join at 1. rewrite Hb. set (tail := if ends_slash (c_tilde :: r) then b else [c_slash] ++ b).
  assert (Rr' : (rest ++ tail) = [] \/ is_abs (rest ++ tail)).
  { destruct Rr as [->|[q ->]]; [|right; now exists (q ++ tail)]. right. unfold tail. rewrite Sr, app_nil_r.
    change (c_tilde :: n) with ([c_tilde] ++ n). assert (ends_slash ([c_tilde] ++ n) = false) as -> by (apply no_slash_ends; intros [H|H]; [discriminate|auto]). now exists b. }
  assert (E : (if ends_slash (c_tilde :: r) then (c_tilde :: r) ++ b else (c_tilde :: r) ++ [c_slash] ++ b) = c_tilde :: n ++ rest ++ tail).
  { unfold tail. rewrite Sr. destruct (ends_slash (c_tilde :: n ++ rest)); cbn; now rewrite <- !app_assoc. }
  rewrite E. unfold expanduser. rewrite N.eqb_refl, Er, (before_slash_app n (rest ++ tail) Nn Rr'). destruct (h n) as [hm|] eqn:Eh.
  - assert (Es : ends_slash (c_tilde :: r) = ends_slash (rstrip_slash hm ++ rest)).
    { rewrite Sr. destruct Rr as [->|[q ->]].
      - rewrite !app_nil_r, rstrip_no_slash. apply no_slash_ends. intros [H|H]; [discriminate|auto].
      - rewrite (ends_app_r (rstrip_slash hm)) by discriminate. change (c_tilde :: n ++ c_slash :: q) with ((c_tilde :: n) ++ c_slash :: q). apply ends_app_r. discriminate. }
    rewrite app_assoc. unfold path_join. rewrite Hb. unfold tail. rewrite Es. destruct (rstrip_slash hm ++ rest) as [|x l] eqn:El.
    + cbn. reflexivity.
    + destruct (ends_slash (x :: l)) eqn:Ex; cbn [app]; reflexivity.
  - rewrite <- E. unfold path_join. rewrite Hb. reflexivity.
Qed.
Lemma join_not_tilde a b : a <> [] -> startswith a [c_tilde] = false -> startswith b [c_slash] = false -> startswith (path_join a b) [c_tilde] = false.
Proof.
  intros Ha Ht Hb. unfold path_join. rewrite Hb. destruct a as [|c a]; [congruence|]. destruct (ends_slash _); cbn [app]; rewrite startswith_cons, startswith_nil in *; exact Ht.
Qed.
Lemma join_tilde_l a b : startswith a [c_tilde] = true -> startswith b [c_slash] = false -> startswith (path_join a b) [c_tilde] = true.
Proof.
  intros Ht Hb. unfold path_join. rewrite Hb. destruct a as [|c a]; [discriminate|]. destruct (ends_slash _); cbn [app]; rewrite startswith_cons, startswith_nil in *; exact Ht.
Qed.
Lemma expand_join w d dp p b : dir_ok d -> is_dir (w_pcwd w) dp -> p <> [] -> startswith b [c_slash] = false ->
  exists q, is_dir (expand_path w (render d) p) q /\ expand_path w (render d) (path_join p b) = render (resolve q b).
Proof.
  intros Hd Hp Np Hb. destruct (startswith p [c_tilde]) eqn:E.
  - rewrite (expand_tilde _ _ dp), (expand_tilde _ _ dp) by (easy || now apply join_tilde_l).
    exists (resolve dp (expanduser (m_home (w_m w)) p)). split; [split; [apply resolve_ok, Hp|reflexivity]|]. rewrite expanduser_join, resolve_join by easy. reflexivity.
  - rewrite expand_plain, expand_plain by (easy || now apply join_not_tilde). exists (resolve d p). split; [split; [now apply resolve_ok|reflexivity]|]. now rewrite resolve_join.
Qed.
Lemma name_not_abs n : name_ok n -> startswith n [c_slash] = false.
Proof. intros (_ & _ & _ & H). destruct n as [|c n]; [reflexivity|]. rewrite startswith_cons, startswith_nil, andb_true_r. apply N.eqb_neq. intros E. apply H. now left. Qed.
Lemma resolve_name d n : name_ok n -> resolve d n = below d n.
Proof. intros H. unfold resolve, walk. rewrite (name_not_abs n H), split_none by apply H. cbn [fold_left]. now rewrite enter_name. Qed.
Lemma cd_to w e p : e < List.length (w_envs w) -> m_kind (w_m w) (expand_path w (e_cwd (env_at w e)) p) = Some KDir ->
  exists w', do_cd w e p = (w', Ok tt) /\ e_cwd (env_at w' e) = expand_path w (e_cwd (env_at w e)) p.
Proof.
  intros He K. pose proof (do_cd_err_iff w e p He) as E. cbn zeta in E. destruct (do_cd w e p) as [w' u] eqn:D. cbn [snd] in E. destruct E as [_ E]. rewrite E in D by now left. exists w'. split; [now rewrite E by now left|].
  apply do_cd_ok in D; [|easy]. tauto.
Qed.

Lemma leads_expand w e args q : e < List.length (w_envs w) -> leads w e args q -> is_dir (expand_path w (e_cwd (env_at w e)) (cd_path args)) q.
Proof. intros He (w0 & D & Q). apply do_cd_ok in D; [|easy]. destruct D as (_ & D & _). now rewrite D in Q. Qed.
Lemma in_dir lists w e args n : In n (cd_dir lists w e args) <->
  In n special \/ exists l, lists (match args with [] => w_pcwd w | _ => expand_path w (e_cwd (env_at w e)) (cd_path args) end) = Some l /\ In (n, KDir) l.
Proof.
  unfold cd_dir. destruct (lists _) as [l|].
  - rewrite in_app_iff, in_map_iff. split.
    + intros [((n', k) & E & I)|H]; [|now left]. apply filter_In in I as [I K]. cbn in E, K. subst n'. right. exists l. destruct k; [now split|discriminate].
    + intros [H|(l' & E & I)]; [now right|]. injection E as <-. left. exists (n, KDir). split; [reflexivity|]. apply filter_In. now split.
  - split; [now left|]. intros [H|(l & E & _)]; [exact H|discriminate].
Qed.
Lemma ordinary_replace n : ordinary n -> cd_replace n = n.
Proof. intros (_ & A & B). unfold cd_replace. now rewrite !text_eqb_neq. Qed.
Lemma special_not n : ordinary n -> ~ In n special.
Proof. intros (_ & A & B) [H|[H|[]]]; congruence. Qed.
Section Facts.
  Context (w : world) (e : nat) (R : reachable w) (He : e < List.length (w_envs w)).
  Context (lists : text -> option (list (text * kind))) (TL : true_listing (w_m w) lists).
  Lemma cwd_dir : exists d, is_dir (e_cwd (env_at w e)) d.
  Proof. exact (proj1 (env_ok_at w e (reachable_inv w R) He)). Qed.
  Lemma pcwd_dir : exists d, is_dir (w_pcwd w) d.
  Proof. exact (inv_p w (reachable_inv w R)). Qed.
  Lemma offered_works args n q : args <> [] -> (exists a, In a args /\ a <> []) -> leads w e args q ->
    In n (cd_dir lists w e args) -> ordinary n -> takes_to e (choose w e args n) (below q n).
  Proof.
    intros Na Ne Ld I O. pose proof (leads_expand _ _ _ _ He Ld) as [Qok Q].
    apply in_dir in I as [I|(l & El & I)]; [now apply special_not in I|]. destruct args as [|a0 r0] eqn:Ea; [congruence|]. rewrite <- Ea in *. rewrite Q in El.
    apply (TL q l Qok El) in I as [Nk K].
    unfold takes_to. rewrite choose_plain by apply O. destruct cwd_dir as [d [Hd Hc] ], pcwd_dir as [dp Hp].
    destruct (expand_join w d dp (cd_path args) n Hd Hp (cd_path_nonempty _ Na Ne) (name_not_abs n Nk)) as (q' & [Qok' Q'] & J).
    rewrite <- Hc in Q', J. rewrite Q in Q'. apply render_inj in Q'; [|easy|easy]. subst q'. rewrite resolve_name in J by exact Nk.
    assert (K' : m_kind (w_m w) (expand_path w (e_cwd (env_at w e)) (cd_path (args ++ [n]))) = Some KDir) by (rewrite cd_path_snoc, ordinary_replace, J by easy; exact K).
    destruct (cd_to w e _ He K') as (w' & D & C). exists w'. split; [now rewrite D|]. rewrite C, cd_path_snoc, ordinary_replace, J by easy. reflexivity.
  Qed.
  Lemma offered_here d n : is_dir (e_cwd (env_at w e)) d -> w_pcwd w = e_cwd (env_at w e) -> In n (cd_dir lists w e []) -> ordinary n -> startswith n [c_tilde] = false ->
    takes_to e (choose w e [] n) (below d n).
  Proof.
    intros [Hd Hc] Same I O Nt. apply in_dir in I as [I|(l & El & I)]; [now apply special_not in I|]. rewrite Same, Hc in El. apply (TL d l Hd El) in I as [Nk K].
    unfold takes_to. rewrite choose_plain by apply O. cbn [app]. rewrite cd_path_one, ordinary_replace by exact O.
    assert (J : expand_path w (e_cwd (env_at w e)) n = render (below d n)) by (rewrite Hc, expand_plain, resolve_name by easy; reflexivity).
    destruct (cd_to w e n He ltac:(now rewrite J)) as (w' & D & C). exists w'. rewrite D. split; [reflexivity|]. now rewrite C, J.
  Qed.
  Lemma offered_elsewhere d dp l n : is_dir (e_cwd (env_at w e)) d -> is_dir (w_pcwd w) dp -> lists (w_pcwd w) = Some l -> In (n, KDir) l -> ordinary n -> startswith n [c_tilde] = false ->
    m_kind (w_m w) (render (below d n)) = None -> In n (cd_dir lists w e []) /\ choose w e [] n = Some (w, Err (OSError ENOENT)).
  Proof.
    intros [Hd Hc] [Hdp Hp] El I O Nt K. assert (Nk : name_ok n) by (rewrite Hp in El; apply (TL dp l Hdp El) in I; tauto). split; [apply in_dir; right; eauto|].
    rewrite choose_plain by apply O. cbn [app]. rewrite cd_path_one, ordinary_replace by exact O. f_equal. apply do_cd_missing. rewrite Hc, expand_plain, resolve_name by easy. exact K.
  Qed.
  Lemma offered_only args n q : args <> [] -> leads w e args q -> In n (cd_dir lists w e args) -> In n [txt "PARENT"; txt "ROOT"] \/ (name_ok n /\ m_kind (w_m w) (render (below q n)) = Some KDir).
  Proof.
    intros Na Ld I. pose proof (leads_expand _ _ _ _ He Ld) as [Qok Q]. apply in_dir in I as [I|(l & El & I)]; [now left|]. right.
    destruct args as [|a0 r0]; [congruence|]. rewrite Q in El. now apply (TL q l Qok El) in I.
  Qed.
  Lemma offered_all args n q l : args <> [] -> leads w e args q -> lists (render q) = Some l -> name_ok n -> m_kind (w_m w) (render (below q n)) = Some KDir -> In n (cd_dir lists w e args).
  Proof.
    intros Na Ld El Nk K. pose proof (leads_expand _ _ _ _ He Ld) as [Qok Q]. apply in_dir. right. exists l. destruct args as [|a0 r0]; [congruence|]. rewrite Q. split; [exact El|]. apply (TL q l Qok El). now split.
  Qed.
  Lemma parent_leads args q : args <> [] -> (exists a, In a args /\ a <> []) -> leads w e args q -> m_kind (w_m w) (render (mkDir (d_two q) (removelast (d_names q)))) = Some KDir ->
    takes_to e (choose w e args (txt "PARENT")) (mkDir (d_two q) (removelast (d_names q))).
  Proof.
    intros Na Ne Ld K. pose proof (leads_expand _ _ _ _ He Ld) as [Qok Q]. unfold takes_to. rewrite choose_plain by (vm_compute; intuition discriminate).
    destruct cwd_dir as [d [Hd Hc] ], pcwd_dir as [dp Hp].
    destruct (expand_join w d dp (cd_path args) t_dotdot Hd Hp (cd_path_nonempty _ Na Ne) eq_refl) as (q' & [Qok' Q'] & J).
    rewrite <- Hc in Q', J. rewrite Q in Q'. apply render_inj in Q'; [|easy|easy]. subst q'. change (resolve q t_dotdot) with (mkDir (d_two q) (removelast (d_names q))) in J.
    assert (E : cd_path (args ++ [txt "PARENT"]) = path_join (cd_path args) t_dotdot) by (now rewrite cd_path_snoc).
    destruct (cd_to w e (cd_path (args ++ [txt "PARENT"])) He ltac:(now rewrite E, J)) as (w' & D & C). exists w'. rewrite D. split; [reflexivity|]. now rewrite C, E, J.
  Qed.
  Lemma root_leads args : m_kind (w_m w) (txt "/") = Some KDir -> takes_to e (choose w e args (txt "ROOT")) (mkDir false []).
  Proof.
    intros K. unfold takes_to. rewrite choose_plain by (vm_compute; intuition discriminate). destruct cwd_dir as [d [Hd Hc] ].
    assert (E : cd_path (args ++ [txt "ROOT"]) = [c_slash]) by (destruct args; [reflexivity|rewrite cd_path_snoc by discriminate; reflexivity]).
    assert (J : expand_path w (e_cwd (env_at w e)) [c_slash] = [c_slash]) by (rewrite Hc, expand_plain by easy; reflexivity).
    destruct (cd_to w e (cd_path (args ++ [txt "ROOT"])) He ltac:(rewrite E, J; exact K)) as (w' & D & C). exists w'. rewrite D. split; [reflexivity|]. rewrite C, E, J. reflexivity.
  Qed.
  Lemma parent_here d : is_dir (e_cwd (env_at w e)) d -> m_kind (w_m w) (render (mkDir (d_two d) (removelast (d_names d)))) = Some KDir ->
    takes_to e (choose w e [] (txt "PARENT")) (mkDir (d_two d) (removelast (d_names d))).
  Proof.
    intros [Hd Hc] K. unfold takes_to. rewrite choose_plain by (vm_compute; intuition discriminate). cbn [app]. rewrite cd_path_one.
    change (cd_replace (txt "PARENT")) with t_dotdot.
    assert (J : expand_path w (e_cwd (env_at w e)) t_dotdot = render (mkDir (d_two d) (removelast (d_names d)))) by (rewrite Hc, expand_plain by easy; reflexivity).
    destruct (cd_to w e t_dotdot He ltac:(now rewrite J)) as (w' & D & C). exists w'. rewrite D. split; [reflexivity|]. now rewrite C, J.
  Qed.
  Lemma tilde_name u h dh : m_home (w_m w) u = Some h -> is_dir h dh -> d_names dh <> [] -> ~ In c_slash u -> m_kind (w_m w) h = Some KDir ->
    takes_to e (choose w e [] (c_tilde :: u)) dh.
  Proof.
    intros Hh [Dh ->] Ne Nu K. unfold takes_to. rewrite choose_plain by (vm_compute; intuition discriminate). cbn [app]. rewrite cd_path_one.
    destruct pcwd_dir as [dp Hp].
    assert (E : cd_replace (c_tilde :: u) = c_tilde :: u ++ []) by (rewrite app_nil_r; reflexivity). rewrite E.
    assert (J : expand_path w (e_cwd (env_at w e)) (c_tilde :: u ++ []) = render dh).
    { rewrite (expand_home w _ u [] (render dh) dh dp Hp Nu (or_introl eq_refl) Hh (conj Dh eq_refl) Ne). now rewrite walk_empty. }
    destruct (cd_to w e _ He ltac:(rewrite J; exact K)) as (w' & D & C). exists w'. rewrite D. split; [reflexivity|]. now rewrite C, J.
  Qed.
End Facts.
Lemma reserved_no_choice w e args n : In n (map txt ["run"; "run_interactive"; "async_run_interactive"; "to_dataframe"; "mro"; "name"]%string) -> choose w e args n = None.
Proof. intros I. repeat (destruct I as [<-|I]; [reflexivity|]). destruct I. Qed.
Lemma interactive_same w e p w' : e < List.length (w_envs w) -> e_inter (env_at w e) = true -> do_cd w e p = (w', Ok tt) -> m_real (w_m w) (e_cwd (env_at w' e)) = e_cwd (env_at w' e) ->
  w_pcwd w' = e_cwd (env_at w' e).
Proof. intros He Hi D Rl. apply do_cd_ok in D; [|easy]. destruct D as (_ & D1 & _ & _ & _ & _ & _ & _ & D2). rewrite D1 in *. rewrite Hi in D2. rewrite D2. exact Rl. Qed.
