From Verif Require Import Py PathModel PathProofs EnvModel ExpandProofs CommandModel CommandProofs PickleModel PickleSpec.

Section Induction0.
  Context (P : pv -> Prop).
  Context (Hat : forall t, P (VAtom t)) (Hfu : forall i n, P (VFun i n)) (Hli : forall l, Forall P l -> P (VList l))
    (Hr : forall t, P (VR t)) (Hsp : forall t, P (VSpecial t))
    (Hpi : forall c fs, Forall (fun kv => P (snd kv)) fs -> P (VPipeline c fs))
    (Hen : forall fs, Forall (fun kv => P (snd kv)) fs -> P (VEnv fs)) (Hru : forall p, P p -> P (VRunning p)).
  Fixpoint pv_all0 (v : pv) : P v :=
    let fix go l : Forall P l := match l with [] => Forall_nil _ | x :: r => Forall_cons x (pv_all0 x) (go r) end in
    let fix gof (l : list (text * pv)) : Forall (fun kv => P (snd kv)) l := match l with [] => Forall_nil _ | kx :: r => Forall_cons kx (pv_all0 (snd kx)) (gof r) end in
    match v with
    | VAtom t => Hat t
    | VFun i n => Hfu i n
    | VList l => Hli l (go l)
    | VR t => Hr t
    | VSpecial t => Hsp t
    | VPipeline c fs => Hpi c fs (gof fs)
    | VEnv fs => Hen fs (gof fs)
    | VRunning p => Hru p (pv_all0 p)
    end.
End Induction0.
Section Induction.
  Context (P : pv -> Prop).
  Context (Hat : forall t, P (VAtom t)) (Hfu : forall i n, P (VFun i n)) (Hli : forall l, Forall P l -> P (VList l))
    (Hr : forall t, P (VR t)) (Hsp : forall t, P (VSpecial t))
    (Hpi : forall c fs, Forall (fun kv => P (snd kv)) fs -> P (VPipeline c fs))
    (Hen : forall fs, Forall (fun kv => P (snd kv) /\ forall q, snd kv = VRunning q -> P q) fs -> P (VEnv fs)) (Hru : forall p, P p -> P (VRunning p)).
  Lemma pv_all v : P v.
  Proof.
    enough (P v /\ forall q, v = VRunning q -> P q) by tauto.
    induction v as [t|i n|l IH|t|t|c fs IH|fs IH|p IH] using pv_all0; (split; [|try discriminate]); auto.
    - apply Hli. eapply Forall_impl; [|exact IH]. cbv beta. tauto.
    - apply Hpi. eapply Forall_impl; [|exact IH]. cbv beta. tauto.
    - apply Hru. tauto.
    - intros q E. injection E as <-. tauto.
  Qed.
End Induction.

Lemma text_eqb_iff a b : text_eqb a b = true <-> a = b.
Proof. destruct (text_eqb_spec a b); split; congruence. Qed.
Lemma stored_spec k : stored_field k = true <-> ~ run_state k.
Proof.
  unfold stored_field, run_state. rewrite andb_true_iff, !negb_true_iff. split.
  - intros [A B] [(r & ->)|C].
    + assert (startswith (txt "__" ++ r) (txt "__") = true) by (apply startswith_app; eauto). congruence.
    + assert (tmem k (map txt ["_running_process"; "_running_processes"]%string) = true) by (apply tmem_In; cbn [map In]; destruct C; auto). congruence.
  - intros H. split.
    + destruct (startswith k (txt "__")) eqn:E; [|reflexivity]. apply startswith_app in E. destruct H. now left.
    + apply tmem_false. intros I. apply H. right. cbn [map In] in I. destruct I as [<-|[<-|[]]]; auto.
Qed.
Lemma stored_false k : stored_field k = false -> run_state k.
Proof.
  intros H. destruct (startswith k (txt "__")) eqn:E.
  - left. now apply startswith_app in E.
  - unfold stored_field in H. rewrite E in H. cbn [negb andb] in H. apply negb_false_iff, tmem_In in H. right. cbn [map In] in H. destruct H as [<-|[<-|[]]]; auto.
Qed.

(** ** The local functions of dumps and loads, named *)
Section Named.
  Context (py : bool).
  Fixpoint dumps_each (l : list pv) : res (list pv) :=
    match l with [] => Ok [] | v :: r => let* a := dumps py v in let* b := dumps_each r in Ok (a :: b) end.
  Fixpoint dumps_fields (l : list (text * pv)) : res (list (text * pv)) :=
    match l with
    | [] => Ok []
    | (k, v) :: r => if stored_field k then let* a := dumps py v in let* b := dumps_fields r in Ok ((k, a) :: b) else dumps_fields r
    end.
  Fixpoint dumps_env (l : list (text * pv)) : res (list (text * pv)) :=
    match l with
    | [] => Ok []
    | (k, v) :: r =>
        let* a := (if text_eqb k (txt "_scope") then Ok (VAtom (txt "None"))
                   else if text_eqb k (txt "last_pipeline") then match v with VRunning p => dumps py p | _ => Err AttributeError end
                   else dumps py v) in
        let* b := dumps_env r in Ok ((k, a) :: b)
    end.
  Lemma dumps_eq v : dumps py v =
    match v with
    | VAtom t => Ok (VAtom t)
    | VFun i n => if i then Ok v else Err PicklingError
    | VList l => let* l' := dumps_each l in Ok (VList l')
    | VR t => Ok (VR t)
    | VSpecial t => Ok (VSpecial t)
    | VPipeline c fs => if py then Err TypeError else let* fs' := dumps_fields fs in Ok (VPipeline c fs')
    | VEnv fs => let* fs' := dumps_env fs in Ok (VEnv fs')
    | VRunning p => let* p' := dumps py p in Ok (VRunning p')
    end.
  Proof. destruct v; reflexivity. Qed.
End Named.
Fixpoint loads_each (l : list pv) : res (list pv) :=
  match l with [] => Ok [] | v :: r => let* a := loads v in let* b := loads_each r in Ok (a :: b) end.
Fixpoint loads_fields (l : list (text * pv)) : res (list (text * pv)) :=
  match l with [] => Ok [] | (k, v) :: r => let* a := loads v in let* b := loads_fields r in Ok ((k, a) :: b) end.
Lemma loads_eq v : loads v =
  match v with
  | VAtom t => Ok (VAtom t)
  | VFun i n => Ok (VFun i n)
  | VList l => let* l' := loads_each l in Ok (VList l')
  | VR _ | VSpecial _ | VRunning _ => Err RecursionError
  | VPipeline c fs => let* fs' := loads_fields fs in Ok (VPipeline c fs')
  | VEnv fs => let* fs' := loads_fields fs in Ok (VEnv fs')
  end.
Proof. destruct v; reflexivity. Qed.
Lemma bind_Ok {A B} (m : res A) (f : A -> res B) b : bind_res m f = Ok b <-> exists a, m = Ok a /\ f a = Ok b.
Proof. destruct m as [a|e]; cbn; split; [intros H; now exists a|intros (x & E & H); now injection E as <-|discriminate|intros (x & E & _); discriminate]. Qed.
Ltac ok H := let a := fresh "a" in let E := fresh "E" in apply bind_Ok in H; destruct H as (a & E & H).

(** * What arrives is the same *)
Lemma send_arrived v : forall s v', dumps false v = Ok s -> loads s = Ok v' -> arrived v v'.
Proof.
  induction v as [t|i n|l IH|t|t|c fs IH|fs IH|p IH] using pv_all; intros s v' D L; rewrite dumps_eq in D.
  - injection D as <-. rewrite loads_eq in L. injection L as <-. constructor.
  - destruct i; [|discriminate]. injection D as <-. rewrite loads_eq in L. injection L as <-. constructor.
  - ok D. injection D as <-. rewrite loads_eq in L. ok L. injection L as <-. constructor.
    revert a a0 E E0. induction IH as [|x r Hx F IHr]; intros a b E E0; cbn [dumps_each] in E.
    + injection E as <-. injection E0 as <-. constructor.
    + ok E. ok E. injection E as <-. cbn [loads_each] in E0. ok E0. ok E0. injection E0 as <-. constructor; eauto.
  - injection D as <-. discriminate.
  - injection D as <-. discriminate.
  - ok D. injection D as <-. rewrite loads_eq in L. ok L. injection L as <-. constructor.
    revert a a0 E E0. induction IH as [|[k x] r Hx F IHr]; intros a b E E0; cbn [dumps_fields] in E.
    + injection E as <-. injection E0 as <-. constructor.
    + destruct (stored_field k) eqn:S.
      * ok E. ok E. injection E as <-. cbn [loads_fields] in E0. ok E0. ok E0. injection E0 as <-. apply stored_spec in S. cbn [snd] in Hx. constructor; eauto.
      * apply stored_false in S. constructor; eauto.
  - ok D. injection D as <-. rewrite loads_eq in L. ok L. injection L as <-. constructor.
    revert a a0 E E0. induction IH as [|[k x] r [Hx Hq] F IHr]; intros a b E E0; cbn [dumps_env] in E.
    + injection E as <-. injection E0 as <-. constructor.
    + ok E. ok E. injection E as <-. cbn [loads_fields] in E0. ok E0. ok E0. injection E0 as <-. cbn [snd] in *.
      destruct (text_eqb k (txt "_scope")) eqn:K.
      * apply text_eqb_iff in K as ->. injection E1 as <-. match goal with H : loads (VAtom _) = Ok _ |- _ => injection H as <- end. constructor. eauto.
      * destruct (text_eqb k (txt "last_pipeline")) eqn:K2.
        -- apply text_eqb_iff in K2 as ->. destruct x; try discriminate. constructor; eauto.
        -- constructor; eauto; intros ->; revert K K2; clear; vm_compute; congruence.
  - ok D. injection D as <-. discriminate.
Qed.
(** * When it can be sent *)
Lemma send_ok v : last_is_run v -> (forall p, part v p -> ~ stuck p) -> exists s v', dumps false v = Ok s /\ loads s = Ok v'.
Proof.
  unfold stuck. induction v as [t|i n|l IH|t|t|c fs IH|fs IH|p IH] using pv_all; intros LR NS; rewrite dumps_eq.
  - do 2 eexists. split; reflexivity.
  - destruct i; [do 2 eexists; split; reflexivity|]. exfalso. apply (NS _ (pt_self _)). eauto.
  - assert (X : exists a b, dumps_each false l = Ok a /\ loads_each a = Ok b).
    { assert (Y : forall x, In x l -> exists s v', dumps false x = Ok s /\ loads s = Ok v').
      { rewrite Forall_forall in IH. intros x I. apply IH; [exact I| |].
        - intros fs y P J. eapply LR; [eapply pt_list; eassumption|exact J].
        - intros p P. apply NS. eapply pt_list; eassumption. }
      clear IH LR NS. induction l as [|x r IHr]; [do 2 eexists; split; reflexivity|].
      destruct (Y x (or_introl eq_refl)) as (s & v' & A & B). destruct IHr as (a & b & C & D); [intros; apply Y; now right|].
      cbn [dumps_each]. rewrite A, C. cbn [bind_res]. do 2 eexists. split; [reflexivity|]. cbn [loads_each]. rewrite B, D. reflexivity. }
    destruct X as (a & b & A & B). rewrite A. cbn [bind_res]. do 2 eexists. split; [reflexivity|]. rewrite loads_eq, B. reflexivity.
  - exfalso. apply (NS _ (pt_self _)). eauto.
  - exfalso. apply (NS _ (pt_self _)). eauto.
  - assert (X : exists a b, dumps_fields false fs = Ok a /\ loads_fields a = Ok b).
    { assert (Y : forall k x, In (k, x) fs -> ~ run_state k -> exists s v', dumps false x = Ok s /\ loads s = Ok v').
      { rewrite Forall_forall in IH. intros k x I R. apply (IH (k, x)); [exact I| |].
        - intros gs y P J. eapply LR; [eapply pt_pipeline; eassumption|exact J].
        - intros p P. apply NS. eapply pt_pipeline; eassumption. }
      clear IH LR NS. induction fs as [|[k x] r IHr]; [do 2 eexists; split; reflexivity|].
      destruct IHr as (a & b & C & D); [intros; eapply Y; [right|]; eassumption|]. cbn [dumps_fields]. destruct (stored_field k) eqn:S.
      - apply stored_spec in S. destruct (Y k x (or_introl eq_refl) S) as (s & v' & A & B).
        rewrite A, C. cbn [bind_res]. do 2 eexists. split; [reflexivity|]. cbn [loads_fields]. rewrite B, D. reflexivity.
      - eauto. }
    destruct X as (a & b & A & B). rewrite A. cbn [bind_res]. do 2 eexists. split; [reflexivity|]. rewrite loads_eq, B. reflexivity.
  - assert (X : exists a b, dumps_env false fs = Ok a /\ loads_fields a = Ok b).
    { assert (Y : forall k x, In (k, x) fs -> k <> txt "_scope" -> exists s v',
        (if text_eqb k (txt "last_pipeline") then match x with VRunning p => dumps false p | _ => Err AttributeError end else dumps false x) = Ok s /\ loads s = Ok v').
      { rewrite Forall_forall in IH. intros k x I R. destruct (text_eqb k (txt "last_pipeline")) eqn:K.
        - apply text_eqb_iff in K as ->. destruct (LR fs x (pt_self _) I) as (q & ->). destruct (IH _ I) as [_ Q]. apply (Q q eq_refl).
          + intros gs y P J. eapply LR; [eapply pt_last; eassumption|exact J].
          + intros p P. apply NS. eapply pt_last; eassumption.
        - assert (k <> txt "last_pipeline") by (intros ->; revert K; vm_compute; congruence). destruct (IH _ I) as [Q _]. apply Q.
          + intros gs y P J. eapply LR; [eapply pt_env; eassumption|exact J].
          + intros p P. apply NS. eapply pt_env; eassumption. }
      clear IH LR NS. induction fs as [|[k x] r IHr]; [do 2 eexists; split; reflexivity|].
      destruct IHr as (a & b & C & D); [intros; eapply Y; [right|]; eassumption|]. cbn [dumps_env].
      destruct (text_eqb k (txt "_scope")) eqn:K.
      - rewrite C. cbn [bind_res]. do 2 eexists. split; [reflexivity|]. cbn [loads_fields]. rewrite D. reflexivity.
      - assert (k <> txt "_scope") as N by (intros ->; revert K; vm_compute; congruence). destruct (Y k x (or_introl eq_refl) N) as (s & v' & A & B).
        rewrite A, C. cbn [bind_res]. do 2 eexists. split; [reflexivity|]. cbn [loads_fields]. rewrite B, D. reflexivity. }
    destruct X as (a & b & A & B). rewrite A. cbn [bind_res]. do 2 eexists. split; [reflexivity|]. rewrite loads_eq, B. reflexivity.
  - exfalso. apply (NS _ (pt_self _)). eauto 10.
Qed.
Lemma send_stuck v : forall s v', dumps false v = Ok s -> loads s = Ok v' -> forall p, part v p -> ~ stuck p.
Proof.
  induction v as [t|i n|l IH|t|t|c fs IH|fs IH|p IH] using pv_all; intros s v' D L q Q S; rewrite dumps_eq in D; inversion Q; subst.
  1: destruct S as [(?&?)|[(?&?)|[(?&?)|(?&?)]]]; discriminate.
  1: destruct S as [(?&E)|[(?&?)|[(?&?)|(?&?)]]]; try discriminate; injection E as -> ->; discriminate.
  1: destruct S as [(?&?)|[(?&?)|[(?&?)|(?&?)]]]; discriminate.
  2: injection D as <-; discriminate.
  2: injection D as <-; discriminate.
  2: destruct S as [(?&?)|[(?&?)|[(?&?)|(?&?)]]]; discriminate.
  3: destruct S as [(?&?)|[(?&?)|[(?&?)|(?&?)]]]; discriminate.
  5: ok D; injection D as <-; discriminate.
  - ok D. injection D as <-. rewrite loads_eq in L. ok L. clear L. clear Q. match goal with H : In _ _, K : part _ _ |- _ => rename H into I; rename K into P end.
    revert a a0 E E0. induction IH as [|x r Hx F IHr]; intros a b E E0; [destruct I|]. cbn [dumps_each] in E.
    ok E. ok E. injection E as <-. cbn [loads_each] in E0. ok E0. ok E0. destruct I as [<-|I]; [eapply Hx; eassumption|eapply IHr; eauto using pt_list].
  - ok D. injection D as <-. rewrite loads_eq in L. ok L. clear L. clear Q. match goal with H : In _ _, N : ~ run_state _, K : part _ _ |- _ => rename H into I; rename N into R; rename K into P end.
    revert a a0 E E0. induction IH as [|[k' x] r Hx F IHr]; intros a b E E0; [destruct I|]. cbn [dumps_fields] in E. destruct (stored_field k') eqn:K.
    + ok E. ok E. injection E as <-. cbn [loads_fields] in E0. ok E0. ok E0. destruct I as [X|I].
      * injection X as -> ->. eapply Hx; eassumption.
      * eapply IHr; eauto using pt_pipeline.
    + destruct I as [X|I]; [injection X as -> ->; apply stored_false in K; contradiction|eapply IHr; eauto using pt_pipeline].
  - ok D. injection D as <-. rewrite loads_eq in L. ok L. clear L. clear Q. match goal with H : In _ _, K : part _ _ |- _ => rename H into I; rename K into P end.
    revert a a0 E E0. induction IH as [|[k' x] r [Hx Hq] F IHr]; intros a b E E0; [destruct I|]. cbn [dumps_env] in E.
    ok E. ok E. injection E as <-. cbn [loads_fields] in E0. ok E0. ok E0. destruct I as [X|I].
    + injection X as -> ->. change (text_eqb (txt "last_pipeline") (txt "_scope")) with false in E1. change (text_eqb (txt "last_pipeline") (txt "last_pipeline")) with true in E1.
      cbv iota in E1. eapply (Hq _ eq_refl); eassumption.
    + eapply IHr; eauto using pt_last.
  - ok D. injection D as <-. rewrite loads_eq in L. ok L. clear L. clear Q. match goal with H : In _ _, K : part _ _ |- _ => rename H into I; rename K into P end.
    revert a a0 E E0. induction IH as [|[k' x] r [Hx Hq] F IHr]; intros a b E E0; [destruct I|]. cbn [dumps_env] in E.
    ok E. ok E. injection E as <-. cbn [loads_fields] in E0. ok E0. ok E0. destruct I as [X|I].
    + injection X as -> ->. destruct (text_eqb k (txt "_scope")) eqn:K1; [apply text_eqb_iff in K1; contradiction|].
      destruct (text_eqb k (txt "last_pipeline")) eqn:K2; [apply text_eqb_iff in K2; contradiction|]. eapply Hx; eassumption.
    + eapply IHr; eauto using pt_env.
Qed.
Lemma send_eq v v' : send false v = Ok v' <-> exists s, dumps false v = Ok s /\ loads s = Ok v'.
Proof. unfold send. apply bind_Ok. Qed.
