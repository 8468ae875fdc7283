(** C86: the user's configuration is kept, and the default one is installed
    completely or not at all. *)
From Verif Require Import Py ConfModel ConfSpec ConfProofs.

Section C86.
  Variable default : list N.
  (** A configuration that is there when pieshell is started is never changed,
      and is what every pieshell executes, whatever fails or is killed. *)
  Theorem C86_existing_kept : forall u l, Forall left_alone l ->
    let s := steps default (mkC (Some u) []) l in
    conf s = Some u /\ forall e, In (PDone e) (procs s) -> e = Some u.
  Proof.
    intros u l F s. destruct (kept default u l (mkC (Some u) []) F eq_refl (Forall_nil _)) as [C P]. split; [exact C|].
    intros e I. fold s in P. rewrite Forall_forall in P. exact (P _ I).
  Qed.
  (** Without one, if nothing goes wrong, the default configuration is installed
      by the time all pieshells have started, however many were started at the
      same time ... *)
  Theorem C86_installed_partial : forall l, Forall smooth l ->
    let s := steps default (mkC None []) l in over s -> procs s <> [] -> conf s = Some default.
  Proof. intros l F s V N. apply over_default; [|exact V|exact N]. apply inv_steps; [exact F|apply inv_start]. Qed.
  (** ... and a pieshell that is alone executes it. *)
  Theorem C86_alone_partial : forall ks, let s := steps default (mkC None []) (AStart :: map (AStep 0) ks) in
    forall e, In (PDone e) (procs s) -> e = Some default.
  Proof.
    intros ks. set (J := fun s => conf s = None /\ procs s = [PStart] \/ conf s = None /\ procs s = [PMissing] \/
      (exists off, off <= List.length default /\ conf s = Some (firstn off default) /\ procs s = [PWriting off]) \/
      conf s = Some default /\ procs s = [PInstalled] \/ conf s = Some default /\ procs s = [PDone (Some default)]).
    assert (H : forall ks s, J s -> J (steps default s (map (AStep 0) ks))).
    { clear. induction ks as [|k ks IH]; intros s H; [exact H|]. cbn [map]. change (steps default s (AStep 0 k :: map (AStep 0) ks)) with (steps default (step default s (AStep 0 k)) (map (AStep 0) ks)).
      apply IH. clear IH. destruct s as [c ps]. unfold J in *. cbn [conf procs] in H.
      destruct H as [[-> ->]|[[-> ->]|[(off & L & -> & ->)|[[-> ->]|[-> ->]]]]]; cbn [step nth procs conf go at_].
      - right. left. now split.
      - right. right. left. exists 0. cbn. repeat split. lia.
      - destruct (firstn (S k) (skipn off default)) as [|b bs] eqn:F.
        + right. right. right. left. cbn. split; [|reflexivity]. assert (Z : List.length (firstn (S k) (skipn off default)) = 0) by now rewrite F. rewrite firstn_length, skipn_length in Z. f_equal. apply firstn_all2. lia.
        + rewrite <- F. right. right. left. exists (off + List.length (firstn (S k) (skipn off default))). pose proof (chunk_bound default off k L) as B. cbn [conf procs]. split; [exact B|]. split; [|reflexivity]. f_equal.
          assert (Lf : List.length (firstn off default) = off) by (rewrite firstn_length; lia).
          set (ch := firstn (S k) (skipn off default)) in *. unfold write_at. rewrite Lf, Nat.sub_diag. cbn [repeat List.app]. rewrite firstn_firstn, Nat.min_id. rewrite (skipn_all2 (firstn off default)) by (rewrite Lf; lia). rewrite app_nil_r.
          assert (Q : ch = firstn (List.length ch) (skipn off default)).
          { unfold ch at 2. rewrite firstn_length. unfold ch. destruct (Nat.le_gt_cases (S k) (List.length (skipn off default))) as [X|X]; [now rewrite Nat.min_l by exact X|]. rewrite Nat.min_r by lia. rewrite !firstn_all2 by lia. reflexivity. }
          rewrite Q at 1. clearbody ch. clear. generalize default as d. generalize (List.length ch) as n. intros n. induction off as [|off IH]; intros d; [reflexivity|]. destruct d as [|x d]; [cbn; now rewrite firstn_nil|]. cbn [firstn skipn List.app plus]. f_equal. apply IH.
      - right. right. right. right. now split.
      - right. right. right. right. now split. }
    intros s e I. assert (K : J s). { unfold s. change (steps default (mkC None []) (AStart :: map (AStep 0) ks)) with (steps default (mkC None [PStart]) (map (AStep 0) ks)). apply H. left. now split. }
    destruct K as [[_ E]|[[_ E]|[(off & _ & _ & E)|[[_ E]|[_ E]]]]]; rewrite E in I; destruct I as [I|[]]; try discriminate. congruence.
  Qed.
  (** But if pieshell is killed while it installs it, what is left is any initial
      part of it, which every later pieshell takes for the user's configuration ... *)
  Theorem C86_crash_refuted : forall n, n <= List.length default -> exists l, Forall left_alone l /\
    let s := steps default (mkC None []) l in conf s = Some (firstn n default) /\ nth 1 (procs s) PStart = PDone (Some (firstn n default)).
  Proof.
    intros n L. destruct n as [|n].
    - exists [AStart; AStep 0 0; AStep 0 0; ACrash 0; AStart; AStep 1 0; AStep 1 0]. split; [repeat constructor|]. split; reflexivity.
    - exists [AStart; AStep 0 0; AStep 0 0; AStep 0 n; ACrash 0; AStart; AStep 1 0; AStep 1 0]. split; [repeat constructor|].
      destruct default as [|b bs] eqn:D; [cbn in L; lia|]. unfold steps. cbn [fold_left step nth procs conf go at_ skipn firstn List.app].
      unfold write_at. cbn [firstn List.app repeat List.length Nat.sub skipn plus]. rewrite ?skipn_nil, ?app_nil_r. split; reflexivity.
  Qed.
  (** ... a second pieshell started at the same moment executes any initial part
      of it, although nothing went wrong ... *)
  Theorem C86_race_refuted : forall n, n <= List.length default -> exists l, Forall smooth l /\
    nth 1 (procs (steps default (mkC None []) l)) PStart = PDone (Some (firstn n default)).
  Proof.
    intros n L. destruct n as [|n].
    - exists [AStart; AStep 0 0; AStep 0 0; AStart; AStep 1 0; AStep 1 0]. split; [repeat constructor|]. reflexivity.
    - exists [AStart; AStep 0 0; AStep 0 0; AStep 0 n; AStart; AStep 1 0; AStep 1 0]. split; [repeat constructor|].
      destruct default as [|b bs] eqn:D; [cbn in L; lia|]. unfold steps. cbn [fold_left step nth procs conf go at_ skipn firstn List.app].
      unfold write_at. cbn [firstn List.app repeat List.length Nat.sub skipn plus]. rewrite ?skipn_nil, ?app_nil_r. reflexivity.
  Qed.
  (** ... and a configuration the user creates at that moment is destroyed. *)
  Theorem C86_overwritten_refuted : forall u, exists before after, Forall smooth (before ++ after) /\
    conf (steps default (steps default (mkC None []) (before ++ [AUser (Some u)])) after) = Some [].
  Proof. intros u. exists [AStart; AStep 0 0], [AStep 0 0]. split; [repeat constructor|reflexivity]. Qed.
  (** If the directory cannot be written, the default configuration is executed;
      any other error keeps pieshell from starting. *)
  Theorem C86_errors : forall p, (forall off, p = PMissing \/ p = PWriting off -> permission default p = PDone (Some default) /\ error p = PFailed).
  Proof. intros p off [-> | ->]; split; reflexivity. Qed.
End C86.
Print Assumptions C86_existing_kept.
Print Assumptions C86_installed_partial.
Print Assumptions C86_alone_partial.
Print Assumptions C86_crash_refuted.
Print Assumptions C86_race_refuted.
Print Assumptions C86_overwritten_refuted.
Print Assumptions C86_errors.
Example C86_nonvacuous :
  let d := [1; 2; 3; 4; 5]%N in
  let l := [AStart; AStart; AStep 0 0; AStep 1 0; AStep 0 0; AStep 0 1; AStep 1 0; AStep 0 0; AStep 1 9; AStep 0 9; AStep 0 0; AStep 0 0; AStep 1 0; AStep 1 0] in
  Forall smooth l /\ over (steps d (mkC None []) l) /\ conf (steps d (mkC None []) l) = Some d /\
  procs (steps d (mkC None []) l) = [PDone (Some d); PDone (Some d)] /\
  procs (steps d (mkC (Some [9]%N) []) [AStart; AStep 0 0; AStart; ACrash 1; AStep 0 0]) = [PDone (Some [9]%N); PCrashed].
Proof. split; [repeat constructor|]. split; [vm_compute; repeat constructor|]. vm_compute. repeat split. Qed.
