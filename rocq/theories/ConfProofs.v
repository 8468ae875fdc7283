(** Proofs about installing the configuration. *)
From Verif Require Import Py ConfModel ConfSpec.

Lemma at_nth l i p : forall x d, nth x (at_ l i p) d = if Nat.eqb x i && (i <? List.length l) then p else nth x l d.
Proof.
  revert i. induction l as [|y l IH]; intros i x d; cbn [at_].
  - rewrite andb_false_r. reflexivity.
  - destruct i as [|i]; destruct x as [|x]; cbn [nth]; try reflexivity. rewrite IH. reflexivity.
Qed.
Lemma at_length l i p : List.length (at_ l i p) = List.length l.
Proof. revert i. induction l as [|y l IH]; intros [|i]; cbn; auto. Qed.
Lemma at_Forall (P : pc -> Prop) l i p : Forall P l -> P p -> Forall P (at_ l i p).
Proof. intros F H. revert i. induction F as [|y l Y F' IH]; intros [|i]; cbn; constructor; auto. Qed.
Lemma Forall_nth_or (P : pc -> Prop) l i d : Forall P l -> P d -> P (nth i l d).
Proof. intros F H. revert i. induction F as [|y l Y _ IH]; intros [|i]; cbn; auto. Qed.

Section Kept.
  (** A file that is there stays as it is. *)
  Variables (default u : list N).
  Definition calm (p : pc) : Prop := match p with PMissing | PWriting _ => False | PDone e => e = Some u | _ => True end.
  Lemma kept_step s a : left_alone a -> conf s = Some u -> Forall calm (procs s) -> conf (step default s a) = Some u /\ Forall calm (procs (step default s a)).
  Proof.
    intros L C F. assert (N : forall i, calm (nth i (procs s) PCrashed)) by (intros i; now apply Forall_nth_or).
    destruct a as [|i k|i|i|i|c]; cbn [step left_alone] in *; try contradiction.
    - split; [exact C|]. apply Forall_app. split; [exact F|]. now constructor.
    - specialize (N i). destruct (nth i (procs s) PCrashed) as [| |off| |e| |]; cbn [go calm] in *; try contradiction; rewrite ?C; cbn [conf procs]; (split; [reflexivity|]); apply at_Forall; auto; now rewrite ?C.
    - cbn [conf procs]. split; [exact C|]. apply at_Forall; [exact F|]. specialize (N i). destruct (nth i (procs s) PCrashed); cbn in *; auto; contradiction.
    - cbn [conf procs]. split; [exact C|]. apply at_Forall; [exact F|]. specialize (N i). destruct (nth i (procs s) PCrashed); cbn in *; auto; contradiction.
    - cbn [conf procs]. split; [exact C|]. apply at_Forall; [exact F|]. specialize (N i). destruct (nth i (procs s) PCrashed); cbn in *; auto; contradiction.
  Qed.
  Lemma kept l : forall s, Forall left_alone l -> conf s = Some u -> Forall calm (procs s) -> conf (steps default s l) = Some u /\ Forall calm (procs (steps default s l)).
  Proof.
    induction l as [|a l IH]; intros s F C P; [now split|]. inversion F; subst. destruct (kept_step s a) as [C' P']; try assumption. cbn. now apply IH.
  Qed.
End Kept.

Section Smooth.
  Variable default : list N.
  (** How much of the default configuration a process has written. *)
  Definition written (p : pc) : option nat :=
    match p with PWriting off => Some off | PInstalled | PDone _ => Some (List.length default) | _ => None end.
  Definition agrees (u : list N) (n : nat) : Prop := n <= List.length u /\ firstn n u = firstn n default.
  Record inv (s : state) : Prop := {
    inv_off : Forall (fun p => match p with PWriting off => off <= List.length default | _ => True end) (procs s);
    inv_conf : match conf s with
               | None => Forall (fun p => match p with PStart | PMissing => True | _ => False end) (procs s)
               | Some u => List.length u <= List.length default /\ exists i n, written (nth i (procs s) PCrashed) = Some n /\ agrees u n
               end;
    inv_ok : Forall (fun p => match p with PFailed | PCrashed => False | _ => True end) (procs s) }.
  Lemma nth_in i s : written (nth i (procs s) PCrashed) <> None -> i < List.length (procs s).
  Proof. intros H. destruct (Nat.lt_ge_cases i (List.length (procs s))) as [L|L]; [exact L|]. exfalso. apply H. now rewrite nth_overflow. Qed.
  Lemma write_length u off chunk : List.length (write_at u off chunk) = Nat.max (List.length u) (off + List.length chunk).
  Proof. unfold write_at. rewrite !app_length, repeat_length, firstn_length, skipn_length. lia. Qed.
  (** Writing a part of the default configuration keeps agreement ... *)
  Lemma write_nth u off chunk j : nth j (write_at u off chunk) 0%N =
    if (off <=? j) && (j <? off + List.length chunk) then nth (j - off) chunk 0%N else nth j u 0%N.
  Proof.
    unfold write_at. destruct (Nat.lt_ge_cases j (List.length (firstn off u))) as [L|L].
    - rewrite app_nth1 by exact L. rewrite firstn_length in L. assert (E : (off <=? j) = false) by (apply Nat.leb_gt; lia). rewrite E. cbn [andb].
      rewrite <- (firstn_skipn off u) at 2. rewrite app_nth1; [reflexivity|rewrite firstn_length; lia].
    - rewrite app_nth2 by exact L. rewrite firstn_length in *. destruct (Nat.lt_ge_cases j off) as [B|B].
      + assert (E : (off <=? j) = false) by (apply Nat.leb_gt; lia). rewrite E. cbn [andb]. rewrite app_nth1 by (rewrite repeat_length; lia).
        rewrite nth_repeat. rewrite nth_overflow; [reflexivity|lia].
      + assert (E : (off <=? j) = true) by (apply Nat.leb_le; lia). rewrite E. cbn [andb]. rewrite app_nth2 by (rewrite repeat_length; lia). rewrite repeat_length.
        replace (j - Nat.min off (List.length u) - (off - List.length u)) with (j - off) by lia.
        destruct (Nat.lt_ge_cases j (off + List.length chunk)) as [K|K].
        * assert (E2 : (j <? off + List.length chunk) = true) by (apply Nat.ltb_lt; lia). rewrite E2. now rewrite app_nth1 by lia.
        * assert (E2 : (j <? off + List.length chunk) = false) by (apply Nat.ltb_ge; lia). rewrite E2. rewrite app_nth2 by lia.
          destruct (Nat.lt_ge_cases j (List.length u)) as [J|J].
          -- rewrite <- (firstn_skipn (off + List.length chunk) u) at 2. rewrite (app_nth2 (firstn _ u)); rewrite firstn_length; [|lia]. f_equal. lia.
          -- rewrite !nth_overflow; [reflexivity|lia|rewrite skipn_length; lia].
  Qed.
  Lemma agrees_nth u n : n <= List.length default -> (agrees u n <-> n <= List.length u /\ forall j, j < n -> nth j u 0%N = nth j default 0%N).
  Proof.
    intros D. split; intros [L H]; (split; [exact L|]).
    - intros j J. rewrite <- (firstn_skipn n u), <- (firstn_skipn n default). rewrite !app_nth1 by (rewrite firstn_length; lia). now rewrite H.
    - apply (nth_ext _ _ 0%N 0%N); [rewrite !firstn_length; lia|]. intros j J. rewrite firstn_length in J.
      assert (X := H j ltac:(lia)). rewrite <- (firstn_skipn n u), <- (firstn_skipn n default) in X. rewrite !app_nth1 in X by (rewrite firstn_length; lia). exact X.
  Qed.
  Lemma chunk_nth off k j : j < List.length (firstn (S k) (skipn off default)) -> nth j (firstn (S k) (skipn off default)) 0%N = nth (off + j) default 0%N.
  Proof.
    intros J. rewrite firstn_length, skipn_length in J.
    transitivity (nth j (skipn off default) 0%N).
    - rewrite <- (firstn_skipn (S k) (skipn off default)) at 2. rewrite app_nth1; [reflexivity|rewrite firstn_length, skipn_length; lia].
    - rewrite <- (firstn_skipn off default) at 2. rewrite app_nth2; rewrite firstn_length; [f_equal; lia|lia].
  Qed.
  Lemma chunk_bound off k : off <= List.length default -> off + List.length (firstn (S k) (skipn off default)) <= List.length default.
  Proof. intros H. rewrite firstn_length, skipn_length. lia. Qed.
  Lemma write_agrees u off k n : off <= List.length default -> n <= List.length default -> agrees u n -> agrees (write_at u off (firstn (S k) (skipn off default))) n.
  Proof.
    intros O D. rewrite !agrees_nth by exact D. intros [L H]. split; [rewrite write_length; lia|]. intros j J. rewrite write_nth.
    destruct (Nat.leb_spec off j); cbn [andb]; [|now apply H]. destruct (Nat.ltb_spec j (off + List.length (firstn (S k) (skipn off default)))); [|now apply H].
    rewrite chunk_nth by lia. f_equal. lia.
  Qed.
  Lemma write_extends u off k : off <= List.length default -> agrees u off -> agrees (write_at u off (firstn (S k) (skipn off default))) (off + List.length (firstn (S k) (skipn off default))).
  Proof.
    intros O A. pose proof (chunk_bound off k O) as B. rewrite agrees_nth in A by exact O. rewrite agrees_nth by exact B. destruct A as [L H]. split; [rewrite write_length; lia|]. intros j J. rewrite write_nth.
    destruct (Nat.leb_spec off j); cbn [andb]; [|apply H; lia]. destruct (Nat.ltb_spec j (off + List.length (firstn (S k) (skipn off default)))); [|lia].
    rewrite chunk_nth by lia. f_equal. lia.
  Qed.
  Lemma inv_step s a : smooth a -> inv s -> inv (step default s a).
  Proof.
    intros S I. destruct I as [O C K]. destruct a as [|i k| | | |]; cbn [smooth] in S; try contradiction; cbn [step].
    - constructor; cbn [conf procs].
      + apply Forall_app. split; [exact O|now constructor].
      + destruct (conf s) as [u|].
        * destruct C as [L (i & n & W & A)]. split; [exact L|]. exists i, n. split; [|exact A]. rewrite app_nth1; [exact W|]. apply nth_in. congruence.
        * apply Forall_app. split; [exact C|now constructor].
      + apply Forall_app. split; [exact K|now constructor].
    - pose proof (Forall_nth_or _ _ i PCrashed O Logic.I) as Oi. cbn beta in Oi. destruct (Nat.lt_ge_cases i (List.length (procs s))) as [Li|Li].
      2:{ rewrite nth_overflow by exact Li. cbn [go]. replace (at_ (procs s) i PCrashed) with (procs s); [now constructor|].
          clear - Li. revert i Li. induction (procs s) as [|x l IH]; intros [|i] Li; cbn in *; try reflexivity; try lia. f_equal. apply IH. lia. }
      assert (Ki : match nth i (procs s) PCrashed with PFailed | PCrashed => False | _ => True end).
      { rewrite Forall_forall in K. apply K. now apply nth_In. }
      assert (Same : forall p, nth i (at_ (procs s) i p) PCrashed = p). { intros p. rewrite at_nth, Nat.eqb_refl. apply Nat.ltb_lt in Li. now rewrite Li. }
      assert (Other : forall p x, x <> i -> nth x (at_ (procs s) i p) PCrashed = nth x (procs s) PCrashed). { intros p x X. rewrite at_nth. apply Nat.eqb_neq in X. now rewrite X. }
      destruct (nth i (procs s) PCrashed) as [| |off| |e| |] eqn:E; cbn [go]; try contradiction.
      + (* start *) constructor; cbn [conf procs].
        * apply at_Forall; [exact O|destruct (conf s); exact Logic.I].
        * destruct (conf s) as [u|]; [|now apply at_Forall]. destruct C as [L (x & n & W & A)]. split; [exact L|]. exists x, n. split; [|exact A].
          rewrite Other; [exact W|]. intros ->. rewrite E in W. discriminate.
        * apply at_Forall; [exact K|destruct (conf s); exact Logic.I].
      + (* open *) constructor; cbn [conf procs].
        * apply at_Forall; [exact O|lia].
        * split; [cbn; lia|]. exists i, 0. rewrite Same. split; [reflexivity|]. split; [cbn; lia|reflexivity].
        * apply at_Forall; [exact K|exact Logic.I].
      + (* write *)
        destruct (conf s) as [u|]; [|exfalso; rewrite Forall_forall in C; specialize (C _ (nth_In _ PCrashed Li)); now rewrite E in C].
        destruct C as [L (x & n & W & A)].
        destruct (firstn (Datatypes.S k) (skipn off default)) as [|b bs] eqn:F.
        * assert (Z : off = List.length default). { assert (X : List.length (firstn (Datatypes.S k) (skipn off default)) = 0) by now rewrite F. rewrite firstn_length, skipn_length in X. lia. }
          constructor; cbn [conf procs]; [now apply at_Forall| |now apply at_Forall]. split; [exact L|].
          destruct (Nat.eq_dec x i) as [->|X]; [exists i, n; rewrite Same; split; [|exact A]; rewrite E in W; cbn in *; congruence|exists x, n; rewrite Other by exact X; now split].
        * rewrite <- F. pose proof (chunk_bound off k Oi) as B. constructor; cbn [conf procs]; [apply at_Forall; [exact O|exact B]| |now apply at_Forall].
          split; [rewrite write_length; lia|]. destruct (Nat.eq_dec x i) as [->|X].
          -- rewrite E in W. injection W as <-. exists i. eexists. rewrite Same. split; [reflexivity|]. now apply write_extends.
          -- exists x, n. rewrite Other by exact X. split; [exact W|]. apply write_agrees; [exact Oi| |exact A]. destruct A as [A1 _]. lia.
      + (* installed *) constructor; cbn [conf procs]; [now apply at_Forall| |now apply at_Forall]. destruct (conf s) as [u|].
        * destruct C as [L (x & n & W & A)]. split; [exact L|]. destruct (Nat.eq_dec x i) as [->|X]; [exists i, n; rewrite Same; split; [|exact A]; rewrite E in W; exact W|exists x, n; rewrite Other by exact X; now split].
        * exfalso. rewrite Forall_forall in C. specialize (C _ (nth_In _ PCrashed Li)). now rewrite E in C.
      + (* done *) assert (Q : at_ (procs s) i (PDone e) = procs s).
        { rewrite <- E. clear. revert i. induction (procs s) as [|x l IH]; intros [|i]; cbn; try reflexivity. f_equal. apply IH. }
        rewrite Q. now constructor.
  Qed.
  Lemma inv_steps l : forall s, Forall smooth l -> inv s -> inv (steps default s l).
  Proof. induction l as [|a l IH]; intros s F I; [exact I|]. inversion F; subst. cbn. apply IH; [assumption|]. now apply inv_step. Qed.
  Lemma inv_start : inv (mkC None []).
  Proof. constructor; cbn; constructor. Qed.
  Lemma over_default s : inv s -> over s -> procs s <> [] -> conf s = Some default.
  Proof.
    intros [O C K] V N. destruct (conf s) as [u|].
    - destruct C as [L (i & n & W & A)]. assert (Li : i < List.length (procs s)) by (apply nth_in; congruence). unfold over in V. rewrite Forall_forall in V. specialize (V _ (nth_In _ PCrashed Li)).
      assert (E : n = List.length default). { destruct (nth i (procs s) PCrashed); cbn in *; try contradiction; try discriminate. congruence. }
      subst n. destruct A as [A1 A2]. rewrite firstn_all in A2. f_equal. rewrite <- A2. symmetry. apply firstn_all2. lia.
    - exfalso. unfold over in V. destruct (procs s) as [|p l]; [congruence|]. inversion C; subst. inversion V; subst. destruct p; cbn in *; tauto.
  Qed.
End Smooth.
