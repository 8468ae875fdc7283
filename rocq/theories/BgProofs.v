(** A job that runs beside others does what it would do alone. *)
From Verif Require Import Py RedirModel Os PerformModel PerformSpec RunModel RunSpec RunTopSpec IterModel FileModel FileSpec FileProofs NetModel JobModel BgModel.

Section Beside.
  Variables np cap : nat.
  Variable fds : list nat.
  Variable sees : list (nat -> option ofd).
  Variable shell : tab.
  Variable Logs : path -> Prop.
  Notation see i := (nth i sees (fun _ => None)).
  Hypothesis Hin : forall i p fl, see i 0 = Some (OFile p fl) -> ~ Logs p /\ fl = O_RDONLY.
  Hypothesis Hout : forall i p fl, see i 1 = Some (OFile p fl) -> Logs p /\ appending fl.

  (** The files may grow, but only the logs. *)
  Definition grows (f f1 : fs) : Prop := (forall q, f q <> None -> f1 q <> None) /\ (forall q, ~ Logs q -> f1 q = f q).
  Lemma grows_refl f : grows f f.
  Proof. split; auto. Qed.
  Lemma grows_trans f g h : grows f g -> grows g h -> grows f h.
  Proof. intros [A B] [C D]. split; [auto|]. intros q Hq. now rewrite (D q Hq), (B q Hq). Qed.
  Definition logd (f : fs) (d : desc) : Prop := d_append d = true /\ d_writable d = true /\ Logs (d_path d) /\ f (d_path d) <> None.
  Definition same_log (f f' : fs) (x y : option desc) : Prop :=
    match x, y with Some d, Some d' => d_path d = d_path d' /\ logd f d /\ logd f' d' | None, None => True | _, _ => False end.
  (** [j] runs on the files [f] with others, [j'] alone on its own, which were [fk] at
      first; [h q]: what it appended to q. *)
  Record rel (h : path -> list N) (fk f : fs) (j j' : job) : Prop := mkRel {
    e_procs : j_procs j = j_procs j';
    e_pipes : j_pipes j = j_pipes j';
    e_term : j_term j = j_term j';
    e_in : j_in j = j_in j';
    e_ok : j_ok j = j_ok j';
    e_wait : j_wait j = j_wait j';
    e_d0 : forall i, j_desc j i 0 = j_desc j' i 0;
    e_d0n : forall i d, j_desc j i 0 = Some d -> ~ Logs (d_path d);
    e_d1 : forall i, same_log f (j_fs j') (j_desc j i 1) (j_desc j' i 1);
    e_same : forall q, ~ Logs q -> f q = j_fs j' q;
    e_hist : forall q, old_content (j_fs j') q = old_content fk q ++ h q }.
  Lemma rel_grows h fk f f1 j j' : grows f f1 -> rel h fk f j j' -> rel h fk f1 j j'.
  Proof.
    intros [G1 G2] [P1 P2 P3 P4 P5 P6 P7 P8 P9 PA PB]. constructor; auto.
    - intros i. pose proof (P9 i) as X. unfold same_log in *. destruct (j_desc j i 1), (j_desc j' i 1); auto.
      destruct X as (A & (B1 & B2 & B3 & B4) & C). repeat split; auto; apply C.
    - intros q Hq. rewrite (G2 q Hq). auto.
  Qed.
  Definition plus (h : path -> list N) (e : option (path * N)) : path -> list N :=
    fun q => h q ++ match e with Some (p, b) => if path_eqb q p then [b] else [] | None => [] end.
  Lemma plus_none h q : plus h None q = h q.
  Proof. apply app_nil_r. Qed.
  Lemma rel_ext h h' fk f j j' : (forall q, h q = h' q) -> rel h fk f j j' -> rel h' fk f j j'.
  Proof. intros X []. constructor; auto. intros q. now rewrite e_hist0, X. Qed.
  Lemma put_log f p c b q : f p = Some c -> old_content (fset f p (overwrite c (List.length c) [b])) q = old_content f q ++ (if path_eqb q p then [b] else []).
  Proof.
    intros E. unfold old_content, fset. destruct (path_eqb_spec q p) as [->|]; [|now rewrite app_nil_r].
    rewrite E. apply overwrite_end.
  Qed.
  Lemma put_grows f p c : Logs p -> grows f (fset f p c).
  Proof. intros Hp. split; intros q; unfold fset; destruct (path_eqb_spec q p); congruence. Qed.

  Definition answer (h : path -> list N) (fk f : fs) (r r' : option job) : Prop :=
    match r, r' with
    | Some j1, Some j1' => exists e, rel (plus h e) fk (j_fs j1) j1 j1' /\ grows f (j_fs j1) /\
        (forall q, old_content (j_fs j1) q = old_content f q ++ plus (fun _ => []) e q)
    | None, None => True
    | _, _ => False
    end.
  Lemma answer_plain h fk f j1 j1' : j_fs j1 = f -> rel h fk f j1 j1' -> answer h fk f (Some j1) (Some j1').
  Proof.
    intros E R. exists None. rewrite E. split; [|split; [apply grows_refl|] ].
    - eapply rel_ext; [|exact R]. intros q. symmetry. apply plus_none.
    - intros q. symmetry. apply app_nil_r.
  Qed.
  Lemma beside_step h fk f j j' l : rel h fk f j j' ->
    answer h fk f (jstep np cap fds sees shell (with_fs f j) l) (jstep np cap fds sees shell j' l).
  Proof.
    intros R. pose proof R as R0. destruct j as [pr pi fs0 ds te inn ok wt], j' as [pr' pi' fs0' ds' te' inn' ok' wt'].
    destruct R as [E1 E2 E3 E4 E5 E6 D0 D0n D1 ES EH]. cbn in E1, E2, E3, E4, E5, E6, D0, D0n, D1, ES, EH. subst pr' pi' te' inn' ok' wt'.
    assert (Base : forall pr2 pi2 te2 inn2 ok2 wt2, rel h fk f (mkJ pr2 pi2 f ds te2 inn2 ok2 wt2) (mkJ pr2 pi2 fs0' ds' te2 inn2 ok2 wt2)).
    { intros. constructor; cbn; auto. }
    destruct l as [i|]; cbn [jstep with_fs j_procs j_pipes j_fs j_desc j_term j_in j_ok j_wait].
    2:{ destruct wt; [exact Logic.I|]. destruct (forallb _ pr); [|exact Logic.I]. apply answer_plain; [reflexivity|apply Base]. }
    unfold jproc. cbn [j_procs with_fs]. destruct (nth i pr None) as [[k|b k|ok2]|]; [| | |exact Logic.I].
    3: apply answer_plain; [reflexivity|apply Base].
    - pose proof (Hin i) as Hi. destruct (see i 0) as [o|]; [|apply answer_plain; [reflexivity|apply Base] ].
      assert (Shell : answer h fk f
         (match inn with b :: r => Some (goes_on (mkJ pr pi f ds te r ok wt) i (k (Some b))) | [] => Some (goes_on (mkJ pr pi f ds te inn ok wt) i (k None)) end)
         (match inn with b :: r => Some (goes_on (mkJ pr pi fs0' ds' te r ok wt) i (k (Some b))) | [] => Some (goes_on (mkJ pr pi fs0' ds' te inn ok wt) i (k None)) end)).
      { destruct inn; (apply answer_plain; [reflexivity|apply Base]). }
      destruct o as [k1|k1|k1|p fl|k1]; try exact Shell.
      + destruct (ours np k1); [|exact Shell].
        cbn [j_pipes with_fs]. destruct (pi k1).
        * unfold j_writer. cbn [j_procs with_fs]. destruct (_ || _); [exact Logic.I|apply answer_plain; [reflexivity|apply Base] ].
        * apply answer_plain; [reflexivity|apply Base].
      + cbn [j_desc with_fs]. rewrite <- (D0 i). destruct (ds i 0) as [d|] eqn:Ed; [|apply answer_plain; [reflexivity|apply Base] ].
        unfold file_read. cbn [j_fs with_fs]. rewrite (ES (d_path d)) by (eapply D0n; exact Ed).
        destruct (match fs0' (d_path d) with Some c => nth_error c (d_off d) | None => None end); apply answer_plain; try reflexivity; try apply Base.
        constructor; cbn; auto.
        * intros i2. rewrite D0. reflexivity.
        * intros i2 d2. destruct (Nat.eqb_spec i2 i) as [->|]; cbn; [|apply D0n]. injection 1 as <-. cbn. eapply D0n. exact Ed.
        * intros i2. rewrite !andb_false_r. apply D1.
    - pose proof (Hout i) as Ho. destruct (see i 1) as [o|]; [|apply answer_plain; [reflexivity|apply Base] ].
      destruct o as [k1|k1|k1|p fl|k1]; try (apply answer_plain; [reflexivity|apply Base]).
      + destruct (ours np k1); [|apply answer_plain; [reflexivity|apply Base] ].
        unfold j_reader. cbn [j_procs j_pipes with_fs]. destruct (negb _); [apply answer_plain; [reflexivity|apply Base]|].
        destruct (_ <? _); [apply answer_plain; [reflexivity|apply Base]|exact Logic.I].
      + cbn [j_desc with_fs]. pose proof (D1 i) as X. unfold same_log in X.
        destruct (ds i 1) as [d|] eqn:Ed, (ds' i 1) as [d'|] eqn:Ed'; try contradiction; [|apply answer_plain; [reflexivity|apply Base] ].
        destruct X as (Ep & (A1 & A2 & A3 & A4) & (B1 & B2 & B3 & B4)).
        unfold sys_write. rewrite A1, A2, B1, B2. cbn [negb j_fs with_fs].
        destruct (f (d_path d)) as [cc|] eqn:Ef; [|congruence]. destruct (fs0' (d_path d')) as [cc'|] eqn:Ef'; [|congruence].
        exists (Some (d_path d, b)). cbn [goes_on turns set_desc j_fs].
        split; [|split; [now apply put_grows|intros q; unfold plus; cbn [List.app]; now apply put_log] ].
        constructor; cbn; auto.
        * intros i2. rewrite !andb_false_r. apply D0.
        * intros i2 d2. rewrite andb_false_r. apply D0n.
        * intros i2. destruct (Nat.eqb_spec i2 i) as [->|Ne]; cbn [andb].
          { cbn. split; [exact Ep|]. unfold logd. cbn. repeat split; auto; rewrite ?fset_same; try discriminate; rewrite ?A2; auto. }
          { pose proof (D1 i2) as X. unfold same_log in *. destruct (ds i2 1), (ds' i2 1); auto.
            destruct X as (Y & (F1 & F2 & F3 & F4) & (G1 & G2 & G3 & G4)). unfold logd. repeat split; auto; unfold fset; [destruct (path_eqb (d_path d0) (d_path d))|destruct (path_eqb (d_path d1) (d_path d'))]; congruence. }
        * intros q Hq. unfold fset. destruct (path_eqb_spec q (d_path d)) as [->|]; [contradiction|]. destruct (path_eqb_spec q (d_path d')) as [->|]; [contradiction|]. auto.
        * intros q. rewrite put_log by exact Ef'. unfold plus. now rewrite EH, Ep, app_assoc.
  Qed.

  (** When it is started. *)
  Record fresh (f : fs) (j : job) : Prop := mkFresh {
    s_d0n : forall i d, j_desc j i 0 = Some d -> ~ Logs (d_path d);
    s_d1 : forall i d, j_desc j i 1 = Some d -> logd (j_fs j) d;
    s_grows : grows f (j_fs j);
    s_old : forall q, old_content (j_fs j) q = old_content f q }.
  Lemma open_one_fresh f j i n j1 : (n = 0 \/ n = 1) -> fresh f j -> open_one sees j i n = Some j1 -> fresh f j1.
  Proof.
    intros Hn [A B C D] E. unfold open_one in E. destruct (see i n) as [o|] eqn:Es; [|injection E as <-; now constructor].
    destruct o as [k1|k1|k1|p fl|k1]; try (injection E as <-; now constructor).
    destruct Hn as [-> | ->].
    - destruct (Hin i p fl Es) as (Np & ->). unfold sys_open in E. destruct (j_fs j p) as [cc|] eqn:Ef; [|discriminate E].
      cbn in E. injection E as <-. constructor; cbn; auto.
      + intros i2 d. destruct (Nat.eqb_spec i2 i) as [->|]; cbn; [|apply A]. injection 1 as <-. exact Np.
      + intros i2 d. rewrite andb_false_r. apply B.
    - destruct (Hout i p fl Es) as (Lp & Fl1 & Fl2 & Fl3 & Fl4). unfold sys_open in E. rewrite Fl1, Fl2, Fl3, Fl4 in E. cbn [andb orb] in E.
      assert (G : forall f2, grows (j_fs j) f2 -> f2 p <> None -> (forall q, old_content f2 q = old_content (j_fs j) q) ->
        fresh f (set_desc j f2 i 1 (mkD p 0 true true))).
      { intros f2 G1 G2 G3. constructor; cbn.
        - intros i2 d. rewrite andb_false_r. apply A.
        - intros i2 d. destruct (Nat.eqb_spec i2 i) as [->|]; cbn.
          + injection 1 as <-. unfold logd. cbn. repeat split; auto.
          + intros Ed. destruct (B _ _ Ed) as (X1 & X2 & X3 & X4). unfold logd. repeat split; auto. now apply G1.
        - eapply grows_trans; eauto.
        - intros q. now rewrite G3. }
      destruct (j_fs j p) as [cc|] eqn:Ef; injection E as <-; apply G.
      + apply grows_refl.
      + congruence.
      + reflexivity.
      + now apply put_grows.
      + rewrite fset_same. discriminate.
      + intros q. unfold old_content, fset. destruct (path_eqb_spec q p) as [->|]; [now rewrite Ef|reflexivity].
  Qed.
  Lemma open_all_fresh f : forall is j j1, fresh f j -> open_all sees j is = Some j1 -> fresh f j1.
  Proof.
    induction is as [|i is IH]; cbn; intros j j1 F E; [injection E as <-; exact F|].
    destruct (open_one sees j i 0) as [ja|] eqn:E0; [|discriminate]. destruct (open_one sees ja i 1) as [jb|] eqn:E1; [|discriminate].
    refine (IH jb j1 _ E). refine (open_one_fresh f ja i 1 jb _ _ E1); [now right|]. refine (open_one_fresh f j i 0 ja _ F E0). now left.
  Qed.
  Lemma fresh_start f progs inp j : job_start sees f progs inp = Some j ->
    rel (fun _ => []) f (j_fs j) j j /\ grows f (j_fs j) /\ (forall q, old_content (j_fs j) q = old_content f q).
  Proof.
    intros E. unfold job_start in E. apply open_all_fresh with (f := f) in E.
    - destruct E as [A B C D]. split; [|split; auto]. constructor; auto.
      + intros i. unfold same_log. pose proof (B i). destruct (j_desc j i 1); auto.
      + intros q. rewrite D. now rewrite app_nil_r.
    - constructor; cbn; try discriminate; auto. apply grows_refl.
  Qed.
End Beside.
