(** C104: completing cd offers the directories one can go to. *)
From Verif Require Import Py PathModel PathSpec PathProofs EnvModel EnvSpec EnvProofs ExpandModel CommandModel CommandSpec CdModel CdSpec CdProofs.

(** cd.a.b.<TAB>: an ordinary name that is offered can be chosen, and leads to the
    directory of that name in the directory cd.a.b leads to. *)
Theorem C104_works_partial : forall w e lists args n q, reachable w -> e < List.length (w_envs w) -> true_listing (w_m w) lists -> says args -> leads w e args q ->
  In n (cd_dir lists w e args) -> ordinary n -> takes_to e (choose w e args n) (below q n).
Proof.
  intros w e lists args n q R He TL S. apply (offered_works w e R He lists TL); [|exact S]. destruct S as (a & I & _). intros ->. exact I.
Qed.
Print Assumptions C104_works_partial.
(** Every directory there is offered (if the directory can be read), and nothing else but
    PARENT and ROOT. *)
Theorem C104_all_offered : forall w e lists args n q l, reachable w -> e < List.length (w_envs w) -> true_listing (w_m w) lists -> says args -> leads w e args q ->
  lists (render q) = Some l -> name_ok n -> m_kind (w_m w) (render (below q n)) = Some KDir -> In n (cd_dir lists w e args).
Proof. intros w e lists args n q l R He TL (a & I & _). apply (offered_all w e He lists TL). intros ->. exact I. Qed.
Print Assumptions C104_all_offered.
Theorem C104_only_offered : forall w e lists args n q, reachable w -> e < List.length (w_envs w) -> true_listing (w_m w) lists -> says args -> leads w e args q ->
  In n (cd_dir lists w e args) -> In n [txt "PARENT"; txt "ROOT"] \/ (name_ok n /\ m_kind (w_m w) (render (below q n)) = Some KDir).
Proof. intros w e lists args n q R He TL (a & I & _). apply (offered_only w e He lists TL). intros ->. exact I. Qed.
Print Assumptions C104_only_offered.
(** PARENT and ROOT are always offered and lead there. *)
Theorem C104_parent : forall w e lists args q, reachable w -> e < List.length (w_envs w) -> says args -> leads w e args q -> m_kind (w_m w) (render (above q)) = Some KDir ->
  In (txt "PARENT") (cd_dir lists w e args) /\ takes_to e (choose w e args (txt "PARENT")) (above q).
Proof.
  intros w e lists args q R He S Ld K. split; [apply in_dir; left; now left|]. apply (parent_leads w e R He); [|exact S|exact Ld|exact K]. destruct S as (a & I & _). intros ->. exact I.
Qed.
Print Assumptions C104_parent.
Theorem C104_root : forall w e lists args, reachable w -> e < List.length (w_envs w) -> m_kind (w_m w) (txt "/") = Some KDir ->
  In (txt "ROOT") (cd_dir lists w e args) /\ takes_to e (choose w e args (txt "ROOT")) (mkDir false []).
Proof. intros w e lists args R He K. split; [apply in_dir; left; right; now left|]. exact (root_leads w e R He args K). Qed.
Print Assumptions C104_root.
(** cd.<TAB>: the same, if the process is in the directory of the environment - as after a
    cd in an interactive environment to a directory that is no link ... *)
Theorem C104_here_partial : forall w e lists d n, reachable w -> e < List.length (w_envs w) -> true_listing (w_m w) lists ->
  is_dir (e_cwd (env_at w e)) d -> w_pcwd w = e_cwd (env_at w e) -> In n (cd_dir lists w e []) -> ordinary n -> startswith n (txt "~") = false ->
  takes_to e (choose w e [] n) (below d n).
Proof. intros w e lists d n R He TL. exact (offered_here w e He lists TL d n). Qed.
Print Assumptions C104_here_partial.
Theorem C104_interactive : forall w e p w', e < List.length (w_envs w) -> e_inter (env_at w e) = true -> do_cd w e p = (w', Ok tt) ->
  m_real (w_m w) (e_cwd (env_at w' e)) = e_cwd (env_at w' e) -> w_pcwd w' = e_cwd (env_at w' e).
Proof. exact interactive_same. Qed.
Print Assumptions C104_interactive.
Theorem C104_parent_here : forall w e lists d, reachable w -> e < List.length (w_envs w) -> is_dir (e_cwd (env_at w e)) d -> m_kind (w_m w) (render (above d)) = Some KDir ->
  In (txt "PARENT") (cd_dir lists w e []) /\ takes_to e (choose w e [] (txt "PARENT")) (above d).
Proof. intros w e lists d R He Hd K. split; [apply in_dir; left; now left|]. exact (parent_here w e He d Hd K). Qed.
Print Assumptions C104_parent_here.
(** ... otherwise names are offered that are not there: choosing one raises. *)
Theorem C104_elsewhere_refuted : forall w e lists d l n, reachable w -> e < List.length (w_envs w) -> true_listing (w_m w) lists ->
  is_dir (e_cwd (env_at w e)) d -> lists (w_pcwd w) = Some l -> In (n, KDir) l -> ordinary n -> startswith n (txt "~") = false ->
  m_kind (w_m w) (render (below d n)) = None -> In n (cd_dir lists w e []) /\ choose w e [] n = Some (w, Err (OSError ENOENT)).
Proof.
  intros w e lists d l n R He TL Hd. destruct (pcwd_dir w R) as [dp Hp]. exact (offered_elsewhere w e lists TL d dp l n Hd Hp).
Qed.
Print Assumptions C104_elsewhere_refuted.
(** A directory called PARENT is offered, and leads to the one above. *)
Theorem C104_parent_name_refuted : forall w e lists args q l, reachable w -> e < List.length (w_envs w) -> true_listing (w_m w) lists -> says args -> leads w e args q ->
  lists (render q) = Some l -> m_kind (w_m w) (render (below q (txt "PARENT"))) = Some KDir -> m_kind (w_m w) (render (above q)) = Some KDir ->
  In (txt "PARENT") (cd_dir lists w e args) /\ ~ takes_to e (choose w e args (txt "PARENT")) (below q (txt "PARENT")).
Proof.
  intros w e lists args q l R He TL S Ld El K K'. split; [apply in_dir; left; now left|]. destruct (C104_parent w e lists args q R He S Ld K') as [_ (w1 & E1 & C1)].
  intros (w2 & E2 & C2). rewrite E1 in E2. injection E2 as <-. rewrite C1 in C2. pose proof (leads_expand _ _ _ _ He Ld) as [Qok _].
  assert (Hp : name_ok (txt "PARENT")) by (split; [discriminate|split; [discriminate|split; [discriminate|vm_compute; intuition discriminate] ] ]).
  apply render_inj in C2.
  - apply (f_equal (fun d => List.length (d_names d))) in C2. cbn in C2. rewrite app_length in C2. cbn in C2. rewrite removelast_firstn_len, firstn_length in C2. lia.
  - unfold dir_ok, above. cbn. rewrite removelast_firstn_len. apply Forall_firstn, Qok.
  - unfold dir_ok, below. cbn. apply Forall_app. split; [exact Qok|]. constructor; [exact Hp|constructor].
Qed.
Print Assumptions C104_parent_name_refuted.
(** A directory called run, name, ... is offered, but cd.run is no cd. *)
Theorem C104_reserved_refuted : forall w e args n, In n (map txt ["run"; "run_interactive"; "async_run_interactive"; "to_dataframe"; "mro"; "name"]%string) -> choose w e args n = None.
Proof. exact reserved_no_choice. Qed.
Print Assumptions C104_reserved_refuted.
(** A directory called ~user is offered by cd.<TAB>, and leads to that user's home. *)
Theorem C104_tilde_refuted : forall w e lists u h dh l, reachable w -> e < List.length (w_envs w) ->
  lists (w_pcwd w) = Some l -> In (txt "~" ++ u, KDir) l -> m_home (w_m w) u = Some h -> is_dir h dh -> d_names dh <> [] -> ~ In c_slash u -> m_kind (w_m w) h = Some KDir ->
  In (txt "~" ++ u) (cd_dir lists w e []) /\ takes_to e (choose w e [] (txt "~" ++ u)) dh.
Proof.
  intros w e lists u h dh l R He El I Hh Hd Ne Nu K. split; [apply in_dir; right; eauto|]. exact (tilde_name w e R He u h dh Hh Hd Ne Nu K).
Qed.
Print Assumptions C104_tilde_refuted.

(** A machine with finitely many directories and files, and its listings. *)
Definition entry := (list text * kind)%type.
Definition kind_of (es : list entry) (p : text) : option kind :=
  match find (fun x => text_eqb (render (mkDir false (fst x))) p) es with Some x => Some (snd x) | None => None end.
Definition names_in (es : list entry) (p : text) : list (text * kind) :=
  flat_map (fun x => match rev (fst x) with [] => [] | n :: up => if text_eqb (render (mkDir false (rev up))) p then [(n, snd x)] else [] end) es.
Definition lists_of (es : list entry) (p : text) : option (list (text * kind)) :=
  match kind_of es p with Some KDir => Some (names_in es p) | _ => None end.
Definition machine_of (homes : text -> option text) (es : list entry) : machine := mkMachine homes (kind_of es) (fun p => p) (fun _ => []).
Lemma kind_in es d k : Forall (fun x => dir_ok (mkDir false (fst x))) es -> NoDup (map fst es) -> dir_ok d -> d_two d = false ->
  kind_of es (render d) = Some k <-> In (d_names d, k) es.
Proof.
  intros Hok Nd Hd T. destruct d as [two ns]. cbn in T. subst two. cbn [d_names]. unfold kind_of. induction es as [|[m k'] es IH]; cbn [find fst snd In]; [split; [discriminate|intros []]|].
  inversion Hok as [|? ? O1 O2]; subst. inversion Nd as [|? ? N1 N2]; subst. destruct (text_eqb_spec (render (mkDir false m)) (render (mkDir false ns))) as [E|E].
  - apply render_inj in E; [|exact O1|exact Hd]. injection E as ->. cbn. split; [intros H; injection H as ->; now left|]. intros [H|H]; [congruence|]. exfalso. apply N1. apply in_map_iff. now exists (ns, k).
  - rewrite (IH O2 N2). split; [now right|]. intros [H|H]; [congruence|exact H].
Qed.
Lemma kind_two es d : Forall (fun x => dir_ok (mkDir false (fst x))) es -> dir_ok d -> d_two d = true -> kind_of es (render d) = None.
Proof.
  intros Hok Hd T. unfold kind_of. destruct (find _ es) as [x|] eqn:F; [|reflexivity]. exfalso. apply find_some in F as [I E]. rewrite Forall_forall in Hok. specialize (Hok _ I).
  destruct (text_eqb_spec (render (mkDir false (fst x))) (render d)) as [E'|]; [|discriminate]. apply render_inj in E'; [|exact Hok|exact Hd]. destruct d. cbn in T. congruence.
Qed.
Lemma machine_lists homes es : Forall (fun x => dir_ok (mkDir false (fst x))) es -> NoDup (map fst es) -> true_listing (machine_of homes es) (lists_of es).
Proof.
  intros Hok Nd d l Hd El n k. unfold lists_of in El. cbn [m_kind machine_of]. destruct (kind_of es (render d)) as [[|]|] eqn:K; [|discriminate|discriminate]. injection El as <-.
  destruct (d_two d) eqn:T; [rewrite (kind_two es d Hok Hd T) in K; discriminate|].
  unfold names_in. rewrite in_flat_map. split.
  - intros ((m, k') & I & H). cbn [fst snd] in H. destruct (rev m) as [|n' up] eqn:Rm; [destruct H|]. destruct (text_eqb_spec (render (mkDir false (rev up))) (render d)) as [E|]; [|destruct H].
    destruct H as [H|[]]. injection H as -> ->. assert (Em : m = rev up ++ [n]) by (rewrite <- (rev_involutive m), Rm; reflexivity).
    rewrite Forall_forall in Hok. pose proof (Hok _ I) as O. cbn in O. unfold dir_ok in O. cbn in O. rewrite Em, Forall_app in O. destruct O as [O1 O2]. inversion O2 as [|? ? On _]; subst.
    apply render_inj in E; [|exact O1|exact Hd]. split; [exact On|]. apply kind_in; [now apply Forall_forall|exact Nd| |exact T|].
    + unfold dir_ok, below. cbn. apply Forall_app. split; [exact Hd|now constructor].
    + cbn. rewrite <- E. cbn. exact I.
  - intros [On Kn]. apply kind_in in Kn; [|exact Hok|exact Nd| |exact T].
    + cbn in Kn. exists (d_names d ++ [n], k). split; [exact Kn|]. cbn [fst snd]. rewrite rev_app_distr. cbn [rev app]. rewrite rev_involutive. destruct d as [two ns]. cbn [d_two d_names] in *. subst two. rewrite text_eqb_refl. now left.
    + unfold dir_ok, below. cbn. apply Forall_app. split; [exact Hd|now constructor].
Qed.
(** /home/ann has the directories src, PARENT, run, ~bob and the file x; the process is in
    /home/ann, environment 0 as well, and environment 1 (not interactive) in /home/bob. *)
Definition some_entries : list entry :=
  map (fun x => (map txt (fst x), snd x)) [([], KDir); (["home"], KDir); (["home"; "ann"], KDir); (["home"; "ann"; "src"], KDir); (["home"; "ann"; "src"; "lib"], KDir); (["home"; "ann"; "PARENT"], KDir);
    (["home"; "ann"; "run"], KDir); (["home"; "ann"; "~bob"], KDir); (["home"; "ann"; "x"], KFile); (["home"; "bob"], KDir)]%string.
Definition some_homes (u : text) : option text := if text_eqb u (txt "bob") then Some (txt "/home/bob") else None.
Definition cw0 := steps (mkW (machine_of some_homes some_entries) (txt "/home/ann") [[]] []) [ONew None None true; ODerive 0 (Some (txt "/home/bob")) None (Some false)].
Example C104_nonvacuous : true_listing (w_m cw0) (lists_of some_entries) /\
  e_cwd (env_at cw0 0) = txt "/home/ann" /\ e_cwd (env_at cw0 1) = txt "/home/bob" /\ w_pcwd cw0 = txt "/home/ann" /\
  cd_dir (lists_of some_entries) cw0 0 [] = map txt ["src"; "PARENT"; "run"; "~bob"; "PARENT"; "ROOT"]%string /\
  cd_dir (lists_of some_entries) cw0 0 [txt "src"] = map txt ["lib"; "PARENT"; "ROOT"]%string /\
  match choose cw0 0 [txt "src"] (txt "lib") with Some (w, Ok tt) => e_cwd (env_at w 0) = txt "/home/ann/src/lib" | _ => False end /\
  match choose cw0 0 [] (txt "src") with Some (w, Ok tt) => e_cwd (env_at w 0) = txt "/home/ann/src" | _ => False end /\
  In (txt "src") (cd_dir (lists_of some_entries) cw0 1 []) /\ choose cw0 1 [] (txt "src") = Some (cw0, Err (OSError ENOENT)) /\
  match choose cw0 0 [txt "."] (txt "PARENT") with Some (w, Ok tt) => e_cwd (env_at w 0) = txt "/home" | _ => False end /\
  match choose cw0 0 [] (txt "~bob") with Some (w, Ok tt) => e_cwd (env_at w 0) = txt "/home/bob" | _ => False end /\
  choose cw0 0 [] (txt "run") = None.
Proof.
  split.
  { assert (Em : w_m cw0 = machine_of some_homes some_entries) by reflexivity. rewrite Em. apply machine_lists.
    - unfold some_entries. repeat constructor; unfold dir_ok; cbn; repeat constructor; try discriminate; cbn; intuition discriminate.
    - unfold some_entries. vm_compute. repeat constructor; cbn; intuition discriminate. }
  vm_compute. repeat split; tauto.
Qed.
