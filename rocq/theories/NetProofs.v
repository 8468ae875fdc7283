(** Proofs about running pipelines of programs. *)
From Verif Require Import Py RedirModel Os PerformModel PerformSpec RunModel RunSpec RunTopSpec IterModel IterSpec IterProofs NetModel NetSpec.

Lemma set_nth_length {A} (l : list A) : forall i v, List.length (set_nth l i v) = List.length l.
Proof. induction l as [|y l IH]; intros [|i] v; cbn; auto. Qed.
Lemma nth_set_nth {A} (l : list A) d : forall i v j, i < List.length l -> nth j (set_nth l i v) d = if Nat.eqb j i then v else nth j l d.
Proof.
  induction l as [|y l IH]; intros i v j Hi; cbn in Hi; [lia|]. destruct i as [|i], j as [|j]; cbn; auto. apply IH. lia.
Qed.
Lemma nth_some_lt {A} (l : list (option A)) i q : nth i l None = Some q -> i < List.length l.
Proof. intros E. destruct (Nat.lt_ge_cases i (List.length l)) as [X|X]; [exact X|]. rewrite nth_overflow in E by exact X. discriminate. Qed.

(** [gives], with an upper bound of the number of steps. *)
Inductive givesn : nat -> prog -> list N -> bool -> list N -> option bool -> Prop :=
| gn_some c p inp d : givesn (S c) p inp d [] None
| gn_exit c ok inp d : givesn (S c) (Exits ok) inp d [] (Some ok)
| gn_write c b k inp d out e : givesn c (k true) inp d out e -> givesn (S c) (Writes b k) inp d (b :: out) e
| gn_read c k b inp d out e : givesn c (k (Some b)) inp d out e -> givesn (S c) (Reads k) (b :: inp) d out e
| gn_eof c k out e : givesn c (k None) [] true out e -> givesn (S c) (Reads k) [] true out e.
Lemma gives_givesn p inp d out e : gives p inp d out e -> exists c, givesn c p inp d out e.
Proof.
  induction 1 as [| |b k inp d out e D [c IH]|k b inp d out e D [c IH]|k out e D [c IH]]; eexists; econstructor; eassumption.
  Unshelve. all: exact 0.
Qed.
Lemma does_gives p inp out ok : does p inp out ok -> gives p inp true out (Some ok).
Proof. induction 1; constructor; auto. Qed.
Lemma givesn_pos c p inp d out e : givesn c p inp d out e -> 0 < c.
Proof. destruct 1; lia. Qed.
(** A read step; [c']: what is left to do. *)
Definition next_count (c c' : nat) (out : list N) (e : option bool) : Prop := 0 < c' /\ c' <= c /\ (out <> [] \/ e <> None -> c' < c).
Lemma givesn_reads c f inp d out e : givesn c (Reads f) inp d out e ->
  (inp = [] -> d = false -> out = [] /\ e = None) /\
  exists c', next_count c c' out e /\ givesn c' (f (hd_error inp)) (tl inp) d out e.
Proof.
  intros D. inversion D; subst.
  - split; [auto|]. eexists. split; [|apply gn_some]. split; [apply Nat.lt_0_succ|]. split; [apply le_n|]. intros [X|X]; congruence.
  - split; [discriminate|]. eexists. split; [|cbn; eassumption]. split; [eapply givesn_pos; eassumption|]. split; [lia|intros _; lia].
  - split; [discriminate|]. eexists. split; [|cbn; eassumption]. split; [eapply givesn_pos; eassumption|]. split; [lia|intros _; lia].
Qed.
Lemma givesn_writes c b k inp d out e : givesn c (Writes b k) inp d out e ->
  (out = [] /\ e = None) \/ exists c' w, S c' = c /\ 0 < c' /\ out = b :: w /\ givesn c' (k true) inp d w e.
Proof. intros D. inversion D; subst; [now left|]. right. eexists _, _. repeat split; try reflexivity; try assumption. eapply givesn_pos; eassumption. Qed.
Lemma givesn_exits c ok inp d out e : givesn c (Exits ok) inp d out e -> out = [] /\ (e = None \/ e = Some ok).
Proof. intros D. inversion D; subst; auto. Qed.
Lemma givesn_more c p inp out e : givesn c p inp false out e -> forall x, givesn c p (inp ++ x) false out e.
Proof.
  intros D. remember false as d eqn:Ed. induction D; intros x; try discriminate Ed; cbn; constructor; auto.
Qed.
(** [careful], with the status. *)
CoInductive heeds (f : bool) : prog -> Prop :=
| heeds_exit ok : heeds f (Exits ok)
| heeds_write b k : k false = Exits f -> heeds f (k true) -> heeds f (Writes b k)
| heeds_read k : (forall o, heeds f (k o)) -> heeds f (Reads k).
Lemma careful_heeds : forall p, careful p -> heeds false p.
Proof. cofix IH. intros p C. destruct C; constructor; auto. Qed.
Lemma lively_soon p : lively p -> soon p.
Proof. intros []; auto; constructor. Qed.
Definition upd {A} (ws : nat -> A) (i : nat) (v : A) : nat -> A := fun j => if Nat.eqb j i then v else ws j.
Lemma upd_eq {A} (ws : nat -> A) i v : upd ws i v i = v.
Proof. unfold upd. now rewrite Nat.eqb_refl. Qed.
Lemma upd_ne {A} (ws : nat -> A) i v j : j <> i -> upd ws i v j = ws j.
Proof. intros. unfold upd. now destruct (Nat.eqb_spec j i). Qed.
Fixpoint total (cs : nat -> nat) (n : nat) : nat := match n with 0 => cs 0 | S m => cs n + total cs m end.
Lemma total_upd cs i v n : i <= n -> v < cs i -> total (upd cs i v) n < total cs n.
Proof.
  intros Hi Hv. assert (E : forall m, m < i -> total (upd cs i v) m = total cs m).
  { induction m as [|m IH]; intros Hm; cbn; rewrite ?IH by lia; rewrite upd_ne by lia; reflexivity. }
  induction n as [|n IH]; cbn.
  - assert (i = 0) as -> by lia. now rewrite upd_eq.
  - destruct (Nat.eq_dec i (S n)) as [->|Ne]; [rewrite upd_eq, E by lia; lia|]. rewrite upd_ne by lia. specialize (IH ltac:(lia)). lia.
Qed.

(** What a step of process [i] leaves as it was. *)
Section Frame.
  Variable H : Type.
  Variable h_open : H -> bool.
  Variables np cap : nat.
  Variable fds : list nat.
  Variable sees : list (nat -> option ofd).
  Variable shell : tab.
  Variables x K : nat.
  Lemma proc_step_frame s i s' : proc_step H h_open np cap fds sees shell x K s i = Some s' -> List.length (n_procs s') = List.length (n_procs s) /\ (forall j, j <> i -> nth j (n_procs s') None = nth j (n_procs s) None) /\ nth i (n_procs s) None <> None.
  Proof.
    unfold proc_step. destruct (nth i (n_procs s) None) as [q|] eqn:E; [|discriminate]. pose proof (nth_some_lt _ _ _ E) as Hi.
    assert (G : forall v pi m r o, List.length (n_procs (mkN (H := H) (set_nth (n_procs s) i v) pi m r o)) = List.length (n_procs s) /\
      (forall j, j <> i -> nth j (n_procs (mkN (H := H) (set_nth (n_procs s) i v) pi m r o)) None = nth j (n_procs s) None) /\ Some q <> None).
    { intros v pi m r o. cbn. rewrite set_nth_length. split; [reflexivity|]. split; [|discriminate]. intros j Hj. rewrite nth_set_nth by exact Hi. now destruct (Nat.eqb_spec j i). }
    intros X. unfold becomes, gone, push, pop in X.
    repeat match type of X with context [match ?e with _ => _ end] => destruct e end; try discriminate; injection X as <-; eapply G.
  Qed.
End Frame.
Arguments proc_step_frame {H h_open np cap fds sees shell x K}.

Section Chain.
  Variable H : Type.
  Variable h_wants : H -> bool.
  Variable h_event : H -> bytes -> H * bool.
  Variable h_next h_resume : H -> H * outcome.
  Variable h_open : H -> bool.
  Variables np cap : nat.
  Variable fds : list nat.
  Variable sees : list (nat -> option ofd).
  Variable shell : tab.
  Variables x n : nat.
  Notation K := (np + n).
  Notation see i := (nth i sees (fun _ => None)).
  Notation rstepH := (rstep H h_wants h_event h_next h_resume h_open true).
  Notation rstepsH := (rsteps H h_wants h_event h_next h_resume h_open true).
  Notation nstepH := (nstep H h_wants h_event h_next h_resume h_open np cap fds sees shell x K).
  Notation nstepsH := (nsteps H h_wants h_event h_next h_resume h_open np cap fds sees shell x K).
  Notation proc_stepH := (proc_step H h_open np cap fds sees shell x K).
  Notation writer := (writer_left H h_open fds sees shell x).
  Notation reader := (reader_left H h_open fds sees shell x).
  Hypothesis Hlen : List.length sees = S n.
  Hypothesis Hin0 : forall k, see 0 0 = Some (OPipeR k) -> k < np.
  Hypothesis HinS : forall j, j < n -> see (S j) 0 = Some (OPipeR (np + j)).
  Hypothesis Hout : forall i, i <= n -> see i 1 = Some (OPipeW (np + i)).
  Hypothesis Hw : forall i m k, i <= n -> In m fds -> np <= k -> see i m = Some (OPipeW k) -> k = np + i.
  Hypothesis Hr : forall i m k, i <= n -> In m fds -> np <= k -> see i m = Some (OPipeR k) -> exists j, i = S j /\ k = np + j.
  Hypothesis H0 : In 0 fds.
  Hypothesis H1 : In 1 fds.
  Hypothesis Hsw : forall m k, refers shell m = Some (OPipeW k) -> k < np.
  Hypothesis Hsr : forall m k, refers shell m = Some (OPipeR k) -> np <= k -> m = x.
  Hypothesis Hx : refers shell x = Some (OPipeR K).
  (** The reader keeps an invariant under which it is open until the end. *)
  Variable RI : rstate H -> Prop.
  Hypothesis RI_step : forall r l r', RI r -> rstepH r l = Some r' -> RI r'.
  Hypothesis RI_open : forall r, RI r -> h_open (r_h r) = false -> r_wopen r = false.

  Lemma some_live_spec test : forall ps ss, some_live fds test ps ss = true <->
    exists i q, nth i ps None = Some q /\ i < List.length ss /\ has fds test (nth i ss (fun _ => None)) = true.
  Proof.
    induction ps as [|p ps IH]; intros ss; cbn [some_live].
    - split; [discriminate|]. intros (i & q & E & _). now destruct i.
    - destruct ss as [|s ss].
      + split; [discriminate|]. intros (i & q & _ & X & _). cbn in X. lia.
      + rewrite orb_true_iff, IH. split.
        * intros [X|(i & q & A & B & C)].
          -- destruct p as [q|]; [|discriminate]. exists 0, q. cbn. repeat split; [lia|exact X].
          -- exists (S i), q. cbn. repeat split; auto. lia.
        * intros ([|i] & q & A & B & C); cbn in *.
          -- left. now rewrite A.
          -- right. exists i, q. repeat split; auto. lia.
  Qed.
  Lemma has_spec test s : has fds test s = true <-> exists m, In m fds /\ test (s m) = true.
  Proof. unfold has. rewrite existsb_exists. reflexivity. Qed.
  Lemma is_w_spec k o : is_w k o = true <-> o = Some (OPipeW k).
  Proof. destruct o as [[]|]; cbn; rewrite ?Nat.eqb_eq; split; try discriminate; try congruence. Qed.
  Lemma is_r_spec k o : is_r k o = true <-> o = Some (OPipeR k).
  Proof. destruct o as [[]|]; cbn; rewrite ?Nat.eqb_eq; split; try discriminate; try congruence. Qed.
  Lemma shell_has_w r j : shell_has H h_open shell x (is_w (np + j)) r = false.
  Proof.
    apply not_true_is_false. unfold shell_has. rewrite existsb_exists. intros (m & _ & E). apply andb_prop in E as [E _].
    apply is_w_spec in E. apply Hsw in E. lia.
  Qed.
  Lemma refers_lt m o : refers shell m = Some o -> m < List.length shell.
  Proof.
    unfold refers. Local Transparent tget. unfold tget. intros E. apply nth_error_Some. destruct (nth_error shell m); [discriminate|]. discriminate E.
  Qed.
  Lemma shell_has_r r j : shell_has H h_open shell x (is_r (np + j)) r = (Nat.eqb j n && h_open (r_h r)).
  Proof.
    apply eq_true_iff_eq. unfold shell_has. rewrite existsb_exists, andb_true_iff. split.
    - intros (m & _ & E). apply andb_prop in E as [E F]. apply is_r_spec in E. assert (m = x) as -> by (eapply Hsr; [exact E|lia]).
      rewrite Nat.eqb_refl in F. cbn in F. rewrite Hx in E. injection E as E. split; [apply Nat.eqb_eq; lia|exact F].
    - intros [E F]. apply Nat.eqb_eq in E. subst j. exists x. split; [apply in_seq; split; [lia|]; cbn; eapply refers_lt; exact Hx|].
      rewrite Hx, Nat.eqb_refl. cbn. now rewrite Nat.eqb_refl.
  Qed.
  Definition live (ps : list (option prog)) (i : nat) : bool := match nth i ps None with Some _ => true | None => false end.
  Lemma writer_spec s ps i : i <= n -> writer s ps (np + i) = live ps i.
  Proof.
    intros Hi. unfold writer_left. rewrite shell_has_w, orb_false_r. apply eq_true_iff_eq. rewrite some_live_spec. split.
    - intros (j & q & E & Hj & A). apply has_spec in A as (m & Im & Em). apply is_w_spec in Em.
      apply Hw in Em; [|lia|exact Im|lia]. assert (j = i) as -> by lia. unfold live. now rewrite E.
    - unfold live. destruct (nth i ps None) as [q|] eqn:E; [|discriminate]. intros _. exists i, q. split; [exact E|]. split; [lia|].
      apply has_spec. exists 1. split; [exact H1|]. apply is_w_spec. now apply Hout.
  Qed.
  Lemma reader_spec s i : i <= n -> reader s (np + i) = if Nat.eqb i n then h_open (r_h (n_rd s)) else live (n_procs s) (S i).
  Proof.
    intros Hi. unfold reader_left. rewrite shell_has_r. apply eq_true_iff_eq. rewrite orb_true_iff, some_live_spec. split.
    - intros [(j & q & E & Hj & A)|A].
      + apply has_spec in A as (m & Im & Em). apply is_r_spec in Em. apply Hr in Em as (j' & -> & Em); [|lia|exact Im|lia].
        assert (j' = i) as -> by lia. destruct (Nat.eqb_spec i n); [lia|]. unfold live. now rewrite E.
      + apply andb_prop in A as [A ->]. now rewrite A.
    - destruct (Nat.eqb_spec i n) as [->|Ne].
      + intros ->. now right.
      + unfold live. destruct (nth (S i) (n_procs s) None) as [q|] eqn:E; [|discriminate]. intros _. left. exists (S i), q. split; [exact E|]. split; [lia|].
        apply has_spec. exists 0. split; [exact H0|]. apply is_r_spec. apply HinS. lia.
  Qed.

  (** ** What remains to be written *)
  Variable out : list N.
  Variable es : nat -> option bool.    (* how each of them is to end *)
  Variable okf : nat -> bool.          (* its status when a write has failed *)
  Variables C T : Prop.                (* the programs are careful; they read everything *)
  Hypothesis Hes : es n <> None.
  Hypothesis HT : T -> forall i, i <= n -> es i <> None.
  Hypothesis Hokf : C -> forall i, es i = Some false -> okf i = false.
  Notation dead s i := (nth i (n_procs s) None = None).
  Definition closing (i : nat) : bool := match i with 0 => true | S j => match es j with Some _ => true | None => false end end.
  Definition feed (s : net H) (ws : nat -> list N) (i : nat) : list N :=
    match i with 0 => n_in s | S j => n_pipes s (np + j) ++ ws j end.
  Record inv (s : net H) (ws : nat -> list N) (cs : nat -> nat) : Prop := {
    i_len : List.length (n_procs s) = S n;
    i_live : forall i q, nth i (n_procs s) None = Some q ->
      givesn (cs i) q (feed s ws i) (closing i) (ws i) (es i) \/ (i < n /\ dead s (S i) /\ 0 < cs i /\ (C -> q = Exits (okf i)));
    i_dead : forall i, i <= n -> dead s i -> ws i = [] \/ (i < n /\ dead s (S i));
    i_sent : r_sent (n_rd s) ++ ws n = out;
    i_wopen : r_wopen (n_rd s) = live (n_procs s) n;
    i_in0 : see 0 0 = None -> n_in s = [];
    i_rd : RI (n_rd s);
    i_care : C -> forall i q, nth i (n_procs s) None = Some q -> heeds (okf i) q;
    i_status : C -> forall i, i <= n -> dead s i -> es i = Some false -> n_ok s = false;
    i_lively : C -> forall i q, nth i (n_procs s) None = Some q -> es i = None -> lively q \/ (i < n /\ dead s (S i) /\ q = Exits (okf i));
    i_all : T -> forall j q, nth (S j) (n_procs s) None = Some q -> reads_all q (feed s ws (S j)) \/ dead s j;
    i_order : T -> forall j, j < n -> dead s (S j) -> dead s j;
    i_ok : T -> (forall i, i <= n -> es i = Some true) -> n_ok s = true }.
  Definition reader_only (l : label) : Prop := match l with LFeed _ | LClose => False | _ => True end.
  Lemma rstep_keeps r l r' : reader_only l -> rstepH r l = Some r' -> r_sent r' = r_sent r /\ r_wopen r' = r_wopen r.
  Proof.
    intros O. destruct l as [d| |m| | |ok]; cbn in O; try contradiction; unfold rstep.
    - destruct (readable H h_open r); [|discriminate]. destruct (h_wants (r_h r)).
      + destruct (read_ok H r m); [|discriminate]. destruct (h_event _ _) as [h w]. intros E. injection E as <-. now split.
      + destruct (h_event _ _) as [h w]. intros E. injection E as <-. now split.
    - destruct (r_phase r); try discriminate. intros E. injection E as <-. unfold after. destruct (h_next _) as [h []]; now split.
    - destruct (r_phase r); try discriminate. intros E. injection E as <-. unfold after. destruct (h_resume _) as [h []]; now split.
    - destruct (r_phase r); try discriminate. intros E. injection E as <-. now split.
  Qed.
  Lemma rstep_feed r b : r_wopen r = true -> rstepH r (LFeed [b]) = Some (with_pend H r (r_pend r ++ [b]) (r_sent r ++ [b])).
  Proof. intros E. unfold rstep, with_pend. now rewrite E. Qed.
  Lemma rstep_close r : r_wopen r = true -> rstepH r LClose = Some (mkR (r_h r) (r_pend r) false (r_phase r) (r_out r) (r_sent r)).
  Proof. intros E. unfold rstep. now rewrite E. Qed.

  (** The reader of a network makes steps of its own transition system. *)
  Lemma feed_becomes s ws i j p : feed (becomes H s j p) ws i = feed s ws i.
  Proof. now destruct i. Qed.
  Lemma inv_becomes s ws cs ws' c i q p :
    inv s ws cs -> nth i (n_procs s) None = Some q -> (forall j, j <> i -> ws' j = ws j) ->
    forall s1, n_procs s1 = n_procs s -> n_ok s1 = n_ok s -> n_rd s1 = n_rd s \/ (i = n /\ RI (n_rd s1) /\ r_wopen (n_rd s1) = r_wopen (n_rd s)) ->
    r_sent (n_rd s1) ++ ws' n = out -> n_in s1 = n_in s \/ see 0 0 <> None ->
    (forall j, j <> i -> j <> S i -> feed s1 ws' j = feed s ws j) ->
    (i < n -> feed s1 ws' (S i) = feed s ws (S i) \/ (es i = None /\ exists y, feed s1 ws' (S i) = feed s ws (S i) ++ y)) ->
    givesn c p (feed s1 ws' i) (closing i) (ws' i) (es i) \/ (i < n /\ dead s (S i) /\ 0 < c /\ (C -> p = Exits (okf i))) ->
    (C -> heeds (okf i) p) ->
    (C -> es i = None -> lively p \/ (i < n /\ dead s (S i) /\ p = Exits (okf i))) ->
    (T -> forall j, i = S j -> reads_all p (feed s1 ws' i) \/ dead s j) ->
    inv (becomes H s1 i p) ws' (upd cs i c).
  Proof.
    intros I Eq Hws s1 Hp Hok Hrd Hs Hi0 Hf HfS Hd Hc Hl Ha. pose proof (nth_some_lt _ _ _ Eq) as Hi.
    assert (Same : forall j, j <> i -> nth j (n_procs (becomes H s1 i p)) None = nth j (n_procs s) None).
    { intros j Hj. cbn. rewrite Hp, nth_set_nth by exact Hi. now destruct (Nat.eqb_spec j i). }
    assert (At : nth i (n_procs (becomes H s1 i p)) None = Some p).
    { cbn. rewrite Hp, nth_set_nth by exact Hi. now rewrite Nat.eqb_refl. }
    assert (Dead : forall j, dead (becomes H s1 i p) j <-> dead s j).
    { intros j. destruct (Nat.eq_dec j i) as [->|Ne]; [rewrite At, Eq; split; discriminate|]. rewrite Same by exact Ne. reflexivity. }
    constructor.
    - cbn. rewrite set_nth_length, Hp. apply I.
    - intros j q' E. rewrite feed_becomes, Dead. destruct (Nat.eq_dec j i) as [->|Ne].
      + rewrite At in E. injection E as <-. rewrite upd_eq. exact Hd.
      + rewrite Hws, upd_ne by exact Ne. rewrite Same in E by exact Ne. destruct (i_live s ws cs I j q' E) as [D|M]; [left|right; exact M].
        destruct (Nat.eq_dec j (S i)) as [->|Ne2]; [|rewrite Hf by assumption; exact D].
        destruct HfS as [->|[En [y ->]]]; [apply nth_some_lt in E; rewrite (i_len s ws cs I) in E; lia|exact D|].
        assert (closing (S i) = false) as Ec by (cbn; now rewrite En). rewrite Ec in *. now apply givesn_more.
    - intros j Hj E. rewrite Dead in *. destruct (Nat.eq_dec j i) as [->|Ne]; [congruence|]. rewrite Hws by exact Ne. now apply (i_dead s ws cs I).
    - exact Hs.
    - transitivity (r_wopen (n_rd s)); [destruct Hrd as [X|(_ & _ & X)]; cbn; rewrite X; reflexivity|]. rewrite (i_wopen s ws cs I). unfold live.
      destruct (Nat.eq_dec n i) as [->|Ne]; [now rewrite Eq, At|now rewrite Same].
    - cbn. intros X. destruct Hi0 as [->|Y]; [now apply (i_in0 s ws cs I)|contradiction].
    - cbn. destruct Hrd as [->|(_ & X & _)]; [apply I|exact X].
    - intros HC j q' E. destruct (Nat.eq_dec j i) as [->|Ne]; [rewrite At in E; injection E as <-; auto|]. rewrite Same in E by exact Ne. now apply (i_care s ws cs I HC).
    - intros HC j Hj E Ej. rewrite Dead in E. cbn. rewrite Hok. now apply (i_status s ws cs I HC j).
    - intros HC j q' E Ej. rewrite Dead. destruct (Nat.eq_dec j i) as [->|Ne]; [rewrite At in E; injection E as <-; auto|]. rewrite Same in E by exact Ne. now apply (i_lively s ws cs I HC).
    - intros HC j q' E. rewrite feed_becomes, Dead. destruct (Nat.eq_dec (S j) i) as [<-|Ne]; [rewrite At in E; injection E as <-; auto|]. rewrite Same in E by exact Ne.
      destruct (i_all s ws cs I HC j q' E) as [D|D]; [left|right; exact D]. destruct (Nat.eq_dec j i) as [->|Ne2]; [|rewrite Hf by congruence; exact D].
      pose proof (nth_some_lt _ _ _ E) as Hj. rewrite (i_len s ws cs I) in Hj. destruct HfS as [->|[En _]]; [lia|exact D|]. now apply (HT HC) in En; [|lia].
    - intros HC j Hj. rewrite !Dead. now apply (i_order s ws cs I HC).
    - intros HC HE. cbn. rewrite Hok. now apply (i_ok s ws cs I HC).
  Qed.
  Lemma inv_gone s ws cs i ok : inv s ws cs -> nth i (n_procs s) None = Some (Exits ok) ->
    inv (gone H h_open fds sees shell x K s i ok) ws (upd cs i 0) /\
    (n_rd (gone H h_open fds sees shell x K s i ok) = n_rd s \/ rstepH (n_rd s) LClose = Some (n_rd (gone H h_open fds sees shell x K s i ok))).
  Proof.
    intros I Eq. pose proof (nth_some_lt _ _ _ Eq) as Hi. pose proof Hi as Hin. rewrite (i_len s ws cs I) in Hin. unfold gone. rewrite writer_spec by lia.
    set (ps := set_nth (n_procs s) i None). set (r := n_rd s).
    assert (Ew : r_wopen r && live ps n = live ps n).
    { unfold r. rewrite (i_wopen s ws cs I). unfold ps, live. rewrite nth_set_nth by exact Hi. destruct (Nat.eqb_spec n i) as [->|Ne]; [apply andb_false_r|]. destruct (nth n (n_procs s) None); reflexivity. }
    rewrite Ew.
    assert (R : mkR (r_h r) (r_pend r) (live ps n) (r_phase r) (r_out r) (r_sent r) = r \/
                rstepH r LClose = Some (mkR (r_h r) (r_pend r) (live ps n) (r_phase r) (r_out r) (r_sent r))).
    { rewrite <- Ew. destruct (r_wopen r) eqn:W.
      - cbn. destruct (live ps n); [left; rewrite <- W; now destruct r|right; now apply rstep_close].
      - left. cbn. rewrite <- W. now destruct r. }
    split; [|exact R].
    assert (Same : forall j, j <> i -> nth j ps None = nth j (n_procs s) None).
    { intros j Hj. unfold ps. rewrite nth_set_nth by exact Hi. now destruct (Nat.eqb_spec j i). }
    assert (At : nth i ps None = None).
    { unfold ps. rewrite nth_set_nth by exact Hi. now rewrite Nat.eqb_refl. }
    assert (Dead : forall j, nth j (n_procs s) None = None -> nth j ps None = None).
    { intros j E. destruct (Nat.eq_dec j i) as [->|Ne]; [exact At|]. now rewrite Same. }
    assert (Live : forall j q, nth j ps None = Some q -> nth j (n_procs s) None = Some q /\ j <> i).
    { intros j q E. destruct (Nat.eq_dec j i) as [->|Ne]; [congruence|]. rewrite Same in E by exact Ne. auto. }
    assert (Hw0 : ws i = [] \/ (i < n /\ dead s (S i))).
    { destruct (i_live s ws cs I i _ Eq) as [D|(A & B & _)]; [left|right; auto]. now apply givesn_exits in D as [D _]. }
    assert (St : C -> es i = Some false -> ok = false).
    { intros HC E. destruct (i_live s ws cs I i _ Eq) as [D|(A & B & _ & D)].
      - apply givesn_exits in D as [_ [D|D]]; congruence.
      - specialize (D HC). injection D as ->. now apply Hokf. }
    assert (Ord : T -> forall j, i = S j -> dead s j).
    { intros HC j ->. destruct (i_all s ws cs I HC j _ Eq) as [X|X]; [inversion X|exact X]. }
    constructor; cbn [n_procs n_rd n_pipes n_in n_ok].
    - unfold ps. rewrite set_nth_length. apply I.
    - intros j q' E. apply Live in E as [E Ne]. rewrite upd_ne by exact Ne. change (feed _ ws j) with (feed s ws j).
      destruct (i_live s ws cs I j q' E) as [D|(A & B & D)]; [left; exact D|right; auto].
    - intros j Hj E. destruct (Nat.eq_dec j i) as [->|Ne].
      + destruct Hw0 as [X|[X Y]]; auto.
      + rewrite Same in E by exact Ne. destruct (i_dead s ws cs I j Hj E) as [X|[X Y]]; auto.
    - apply I.
    - reflexivity.
    - apply I.
    - destruct R as [->|R]; [apply I|]. eapply RI_step; [apply I|exact R].
    - intros HC j q' E. apply Live in E as [E _]. now apply (i_care s ws cs I HC).
    - intros HC j Hj E Ej. destruct (Nat.eq_dec j i) as [->|Ne]; [rewrite (St HC Ej); apply andb_false_r|]. rewrite Same in E by exact Ne. rewrite (i_status s ws cs I HC j Hj E Ej). reflexivity.
    - intros HC j q' E Ej. apply Live in E as [E _]. destruct (i_lively s ws cs I HC j q' E Ej) as [X|(X & Y & Z)]; auto.
    - intros HC j q' E. apply Live in E as [E _]. destruct (i_all s ws cs I HC j q' E) as [X|X]; auto.
    - intros HC j Hj E. destruct (Nat.eq_dec (S j) i) as [X|Ne]; [apply Dead; now apply (Ord HC)|]. rewrite Same in E by exact Ne. apply Dead. now apply (i_order s ws cs I HC).
    - intros HC HE. rewrite (i_ok s ws cs I HC HE). cbn. destruct (i_live s ws cs I i _ Eq) as [D|(A & B & _)].
      + apply givesn_exits in D as [_ [D|D]]; rewrite (HE i) in D by lia; congruence.
      + pose proof (i_order s ws cs I HC i A B). congruence.
  Qed.
  Lemma K_not_pipe j : j < n -> (np + j =? K) = false.
  Proof. intros. apply Nat.eqb_neq. lia. Qed.
  Lemma ours_plus j : ours np (np + j) = true.
  Proof. apply Nat.leb_le. lia. Qed.

  (** A step of process [i]. *)
  Definition goes (s s' : net H) (ws : nat -> list N) (cs : nat -> nat) (i : nat) : Prop :=
    exists ws' c, inv s' ws' (upd cs i c) /\ (forall j, j <> i -> ws' j = ws j) /\ c <= cs i /\ (C -> ws i <> [] \/ es i <> None -> c < cs i) /\
      exists rl, rstepsH (n_rd s) rl = Some (n_rd s').
  Lemma heeds_reads f k : heeds f (Reads k) -> forall o, heeds f (k o).
  Proof. intros X. now inversion X. Qed.
  Lemma heeds_writes f b k : heeds f (Writes b k) -> k false = Exits f /\ heeds f (k true).
  Proof. intros X. inversion X. now split. Qed.
  Lemma lively_reads k : lively (Reads k) -> forall o, lively (k o).
  Proof. intros X. now inversion X. Qed.
  Lemma reads_reads k inp : reads_all (Reads k) inp -> inp = [] \/ reads_all (k (hd_error inp)) (tl inp).
  Proof. intros X. inversion X; subst; [now left|now right]. Qed.
  (** What reading makes of process [i]; [s1]: without the byte read. *)
  Lemma inv_read_step s ws cs i f s1 : inv s ws cs -> nth i (n_procs s) None = Some (Reads f) ->
    n_procs s1 = n_procs s -> n_ok s1 = n_ok s -> n_rd s1 = n_rd s -> n_in s1 = n_in s \/ see 0 0 <> None ->
    (forall j, j <> i -> feed s1 ws j = feed s ws j) -> feed s1 ws i = tl (feed s ws i) -> (T -> feed s ws i = [] -> forall j, i = S j -> dead s j) ->
    goes s (becomes H s1 i (f (hd_error (feed s ws i)))) ws cs i.
  Proof.
    intros I Eq Ep Eo Er Ei Ef Et Ee. pose proof (nth_some_lt _ _ _ Eq) as Hi. rewrite (i_len s ws cs I) in Hi.
    assert (R0 : exists rl, rstepsH (n_rd s) rl = Some (n_rd (becomes H s1 i (f (hd_error (feed s ws i)))))) by (exists []; cbn; now rewrite Er).
    assert (Get : exists c, (givesn c (f (hd_error (feed s ws i))) (feed s1 ws i) (closing i) (ws i) (es i) \/ (i < n /\ dead s (S i) /\ 0 < c /\ (C -> f (hd_error (feed s ws i)) = Exits (okf i)))) /\
       c <= cs i /\ (C -> ws i <> [] \/ es i <> None -> c < cs i)).
    { destruct (i_live s ws cs I i _ Eq) as [D|(A & B & D & E)].
      - apply givesn_reads in D as (_ & c & (N1 & N2 & N3) & D). exists c. rewrite Et. split; [left; exact D|]. split; [exact N2|auto].
      - exists (cs i). split; [right|split; [apply le_n|]]; [split; [exact A|split; [exact B|split; [exact D|]]]|]; intros HC; specialize (E HC); discriminate. }
    destruct Get as (c & G & N2 & N3). exists ws, c. split; [|split; [auto|split; [exact N2|split; [exact N3|exact R0]]]].
    eapply (inv_becomes s ws cs ws c i _ _ I Eq); auto.
    - rewrite Er. apply I.
    - intros HC. apply heeds_reads. now apply (i_care s ws cs I HC).
    - intros HC Ej. destruct (i_lively s ws cs I HC i _ Eq Ej) as [X|(_ & _ & X)]; [left; now apply lively_reads|discriminate].
    - intros HC j ->. rewrite Et. destruct (i_all s ws cs I HC j _ Eq) as [X|X]; [|now right]. apply reads_reads in X as [X|X]; [right; now apply Ee|now left].
  Qed.
  Lemma inv_proc s ws cs i s' : inv s ws cs -> proc_stepH s i = Some s' -> goes s s' ws cs i.
  Proof.
    intros I. unfold proc_step. destruct (nth i (n_procs s) None) as [q|] eqn:Eq; [|discriminate].
    pose proof (nth_some_lt _ _ _ Eq) as Hi. rewrite (i_len s ws cs I) in Hi.
    assert (R0 : exists rl, rstepsH (n_rd s) rl = Some (n_rd s)) by (exists []; reflexivity).
    destruct q as [f|b k|ok].
    - destruct i as [|j].
      + (* the first process reads from outside *)
        assert (In' : forall o, see 0 0 = Some o ->
          match n_in s with
          | b :: r => Some (becomes H (mkN (n_procs s) (n_pipes s) r (n_rd s) (n_ok s)) 0 (f (Some b)))
          | [] => Some (becomes H s 0 (f None)) end = Some s' -> goes s s' ws cs 0).
        { intros o Eo. destruct (n_in s) as [|b r] eqn:En; intros E; injection E as <-.
          - replace (f None) with (f (hd_error (feed s ws 0))) by (cbn; now rewrite En). apply inv_read_step; auto; [cbn; now rewrite En|discriminate].
          - replace (f (Some b)) with (f (hd_error (feed s ws 0))) by (cbn; now rewrite En). apply inv_read_step; auto; [right; congruence| |cbn; now rewrite En|discriminate].
            intros [|j] Hj; [lia|reflexivity]. }
        destruct (see 0 0) as [o|] eqn:E0.
        2: { intros E. injection E as <-. pose proof (i_in0 s ws cs I E0) as En. replace (f None) with (f (hd_error (feed s ws 0))) by (cbn; now rewrite En).
             apply inv_read_step; auto; [cbn; now rewrite En|discriminate]. }
        destruct o as [?|k|?|? ?|?]; try exact (In' _ eq_refl).
        assert (Ek : k < np) by now apply Hin0. unfold ours. destruct (Nat.leb_spec np k); [lia|]. exact (In' _ eq_refl).
      + rewrite (HinS j) by lia. rewrite ours_plus. unfold content. rewrite K_not_pipe by lia.
        destruct (n_pipes s (np + j)) as [|b r] eqn:En.
        * rewrite writer_spec by lia. unfold live. destruct (nth j (n_procs s) None) eqn:Ej; [discriminate|]. intros E. injection E as <-.
          destruct (i_dead s ws cs I j ltac:(lia) Ej) as [X|[_ X]]; [|congruence].
          assert (Ef : feed s ws (S j) = []) by (cbn; now rewrite En, X).
          replace (f None) with (f (hd_error (feed s ws (S j)))) by now rewrite Ef. apply inv_read_step; auto; [now rewrite Ef|].
          intros _ _ j' E. injection E as <-. exact Ej.
        * intros E. injection E as <-. unfold pop. rewrite K_not_pipe by lia.
          replace (f (Some b)) with (f (hd_error (feed s ws (S j)))) by (cbn; now rewrite En). apply inv_read_step; auto.
          -- intros [|j'] Hj; [reflexivity|]. cbn. destruct (Nat.eqb_spec (np + j') (np + j)); [lia|reflexivity].
          -- cbn. rewrite Nat.eqb_refl, En. reflexivity.
          -- intros _ X. cbn in X. rewrite En in X. discriminate.
    - rewrite Hout by lia. rewrite ours_plus, reader_spec by lia. destruct (negb _) eqn:Er.
      + intros E. injection E as <-. apply negb_true_iff in Er. destruct (Nat.eqb_spec i n) as [->|Ne].
        { apply (RI_open _ (i_rd s ws cs I)) in Er. rewrite (i_wopen s ws cs I) in Er. unfold live in Er. rewrite Eq in Er. discriminate. }
        assert (Ed : dead s (S i)) by (unfold live in Er; now destruct (nth (S i) (n_procs s) None)).
        assert (Get : exists c, 0 < c /\ c <= cs i /\ (C -> ws i <> [] \/ es i <> None -> c < cs i)).
        { destruct (i_live s ws cs I i _ Eq) as [D|(_ & _ & D & E)].
          - pose proof (givesn_pos _ _ _ _ _ _ D) as Hp. apply givesn_writes in D as [[X Y]|(c & w & X & Y & _)]; [|exists c; lia]. exists (cs i). split; [exact Hp|]. split; [lia|]. rewrite X, Y. intros _ [Z|Z]; congruence.
          - exists (cs i). split; [exact D|]. split; [lia|]. intros HC. specialize (E HC). discriminate. }
        destruct Get as (c & P1 & P2 & P3). exists ws, c. split; [|split; [auto|split; [exact P2|split; [exact P3|exact R0]]]].
        assert (Ex : C -> k false = Exits (okf i)) by (intros HC; pose proof (i_care s ws cs I HC i _ Eq) as X; now apply heeds_writes in X as [X _]).
        eapply (inv_becomes s ws cs ws c i _ _ I Eq); auto.
        * apply I.
        * right. split; [lia|]. auto.
        * intros HC. rewrite (Ex HC). constructor.
        * intros HC _. right. split; [lia|]. auto.
        * intros HC j ->. right. exfalso. pose proof (i_order s ws cs I HC (S j) ltac:(lia) Ed). congruence.
      + destruct (List.length (content H K s (np + i)) <? cap); [|discriminate]. intros E. injection E as <-. apply negb_false_iff in Er.
        assert (D : givesn (cs i) (Writes b k) (feed s ws i) (closing i) (ws i) (es i)).
        { destruct (i_live s ws cs I i _ Eq) as [D|(A & B & _)]; [exact D|]. destruct (Nat.eqb_spec i n); [lia|]. unfold live in Er. rewrite B in Er. discriminate. }
        pose proof (givesn_pos _ _ _ _ _ _ D) as Hp. apply givesn_writes in D as D'.
        assert (Ne0 : i = n -> ~ (ws i = [] /\ es i = None)) by (intros -> [_ X]; congruence).
        assert (Get : exists w c, (ws i = b :: w \/ (ws i = [] /\ w = [] /\ es i = None)) /\ givesn c (k true) (feed s ws i) (closing i) w (es i) /\ c <= cs i /\ (C -> ws i <> [] \/ es i <> None -> c < cs i)).
        { destruct D' as [[X Y]|(c & w & X & Y & Z & W)].
          - exists [], (cs i). split; [auto|]. split; [|split; [lia|rewrite X, Y; intros _ [?|?]; congruence]]. rewrite Y. destruct (cs i); [lia|]. apply gn_some.
          - exists w, c. split; [auto|]. split; [exact W|]. split; [lia|]. intros _ _. lia. }
        destruct Get as (w & c & Hw' & G & P2 & P3). exists (upd ws i w), c.
        assert (Hcare : C -> heeds (okf i) (k true)) by (intros HC; pose proof (i_care s ws cs I HC i _ Eq) as X; now apply heeds_writes in X as [_ X]).
        assert (Hliv : C -> es i = None -> lively (k true) \/ (i < n /\ dead s (S i) /\ k true = Exits (okf i))).
        { intros HC Ej. destruct (i_lively s ws cs I HC i _ Eq Ej) as [X|(_ & _ & X)]; [inversion X; auto|discriminate]. }
        assert (Hall : T -> forall j, i = S j -> reads_all (k true) (feed s ws i) \/ dead s j).
        { intros HC j ->. destruct (i_all s ws cs I HC j _ Eq) as [X|X]; [inversion X; auto|auto]. }
        unfold push. destruct (Nat.eqb_spec (np + i) K) as [EK|NK].
        * assert (i = n) as -> by lia. assert (W : r_wopen (n_rd s) = true) by (rewrite (i_wopen s ws cs I); unfold live; now rewrite Eq).
          pose proof (rstep_feed _ b W) as RF.
          assert (Fn : forall s2, n_in s2 = n_in s -> n_pipes s2 = n_pipes s -> feed s2 (upd ws n w) n = feed s ws n).
          { intros s2 E1 E2. unfold feed. destruct n as [|m]; [exact E1|]. rewrite E2, upd_ne by lia. reflexivity. }
          split; [|split; [intros j Hj; now apply upd_ne|split; [exact P2|split; [exact P3|]]]].
          -- eapply (inv_becomes s ws cs _ _ n _ _ I Eq).
             ++ intros j Hj. now apply upd_ne.
             ++ reflexivity.
             ++ reflexivity.
             ++ right. split; [reflexivity|]. split; [cbn; eapply RI_step; [apply I|exact RF]|reflexivity].
             ++ cbn. rewrite upd_eq. rewrite <- app_assoc. cbn. rewrite <- (i_sent s ws cs I). f_equal. destruct Hw' as [X|(X & _ & Y)]; [now rewrite X|congruence].
             ++ now left.
             ++ intros [|j] X Y; [reflexivity|]. cbn. rewrite upd_ne by lia. reflexivity.
             ++ lia.
             ++ left. rewrite upd_eq, Fn by reflexivity. exact G.
             ++ exact Hcare.
             ++ exact Hliv.
             ++ rewrite Fn by reflexivity. exact Hall.
          -- exists [LFeed [b]]. cbn [rsteps]. rewrite RF. reflexivity.
        * assert (Fn : forall s2, n_in s2 = n_in s -> (forall j, j <> i -> n_pipes s2 (np + j) = n_pipes s (np + j)) -> forall j, j <> S i -> feed s2 (upd ws i w) j = feed s ws j).
          { intros s2 E1 E2 [|j] Hj; [exact E1|]. cbn. rewrite E2, upd_ne by lia. reflexivity. }
          split; [|split; [intros j Hj; now apply upd_ne|split; [exact P2|split; [exact P3|exact R0]]]].
          eapply (inv_becomes s ws cs _ _ i _ _ I Eq).
          -- intros j Hj. now apply upd_ne.
          -- reflexivity.
          -- reflexivity.
          -- now left.
          -- cbn. rewrite upd_ne by lia. apply I.
          -- now left.
          -- intros j X Y. apply Fn; [reflexivity| |exact Y]. intros j' Hj'. cbn. destruct (Nat.eqb_spec (np + j') (np + i)); [lia|reflexivity].
          -- intros Hn. cbn. rewrite upd_eq, Nat.eqb_refl, <- app_assoc. cbn. destruct Hw' as [X|(X & Y & Z)]; [left; now rewrite X|].
             right. split; [exact Z|]. exists [b]. rewrite X, Y, app_nil_r. reflexivity.
          -- left. rewrite upd_eq, Fn; [exact G|reflexivity| |lia]. intros j' Hj'. cbn. destruct (Nat.eqb_spec (np + j') (np + i)); [lia|reflexivity].
          -- exact Hcare.
          -- exact Hliv.
          -- rewrite Fn; [exact Hall|reflexivity| |lia]. intros j' Hj'. cbn. destruct (Nat.eqb_spec (np + j') (np + i)); [lia|reflexivity].
    - intros E. injection E as <-. destruct (inv_gone s ws cs i ok I Eq) as [I' R]. exists ws, 0. split; [exact I'|]. split; [auto|].
      assert (0 < cs i) by (destruct (i_live s ws cs I i _ Eq) as [D|(_ & _ & D & _)]; [eapply givesn_pos; eauto|exact D]).
      split; [lia|]. split; [auto|]. destruct R as [->|R]; [exact R0|]. exists [LClose]. cbn [rsteps]. now rewrite R.
  Qed.
  Lemma inv_read s ws cs rl r : inv s ws cs -> reader_only rl -> rstepH (n_rd s) rl = Some r ->
    inv (mkN (n_procs s) (n_pipes s) (n_in s) r (n_ok s)) ws cs.
  Proof.
    intros I El E. assert (KK : r_sent r = r_sent (n_rd s) /\ r_wopen r = r_wopen (n_rd s)).
    { eapply rstep_keeps; [|exact E]. exact El. }
    destruct KK as [E1 E2]. pose proof (RI_step _ _ _ (i_rd s ws cs I) E) as E3.
    destruct I. constructor; cbn [n_procs n_pipes n_in n_rd n_ok]; try assumption; [now rewrite E1|now rewrite E2].
  Qed.
  Lemma nstep_read s l s' : nstepH s l = Some s' -> proc_label l = false ->
    exists rl r, reader_only rl /\ rstepH (n_rd s) rl = Some r /\ s' = mkN (n_procs s) (n_pipes s) (n_in s) r (n_ok s).
  Proof.
    unfold nstep. destruct (negb (may H s l)); [discriminate|]. destruct l as [i|m| | |ok]; [discriminate| | | |]; cbn [reader_label];
      (match goal with |- match ?e with _ => _ end = _ -> _ => destruct e as [r|] eqn:E; [|discriminate] end; intros X; injection X as <-; intros _;
       eexists _, r; split; [|split; [exact E|reflexivity]]; exact Logic.I).
  Qed.
  Lemma total_le cs i v m : v <= cs i -> total (upd cs i v) m <= total cs m.
  Proof.
    intros Hv. induction m as [|m IH]; cbn.
    - unfold upd. destruct (Nat.eqb_spec 0 i) as [<-|]; lia.
    - unfold upd at 1. destruct (Nat.eqb_spec (S m) i) as [<-|]; lia.
  Qed.
  Definition busy : Prop := C /\ forall i, i <= n -> es i <> None.
  (** Every step keeps the invariant; a step of a process uses up work. *)
  Lemma inv_nstep s ws cs l s' : inv s ws cs -> nstepH s l = Some s' ->
    exists ws' cs', inv s' ws' cs' /\ (busy -> total cs' n + (if proc_label l then 1 else 0) <= total cs n) /\ exists rl, rstepsH (n_rd s) rl = Some (n_rd s').
  Proof.
    intros I E. destruct (proc_label l) eqn:Pl.
    - destruct l as [i| | | |]; try discriminate. assert (E' : proc_stepH s i = Some s') by exact E.
      assert (Hi : i <= n).
      { unfold proc_step in E'. destruct (nth i (n_procs s) None) eqn:Eq; [|discriminate]. apply nth_some_lt in Eq. rewrite (i_len s ws cs I) in Eq. lia. }
      destruct (inv_proc s ws cs i s' I E') as (ws' & c & I' & _ & Le & Lt & R). exists ws', (upd cs i c). split; [exact I'|]. split; [|exact R].
      intros [HC HE]. specialize (Lt HC (or_intror (HE i Hi))). pose proof (total_upd cs i c n Hi Lt). lia.
    - destruct (nstep_read s l s' E Pl) as (rl & r & O & Er & ->). exists ws, cs. split; [eapply inv_read; eauto|]. split; [lia|].
      exists [rl]. cbn [rsteps n_rd]. now rewrite Er.
  Qed.
  Lemma rsteps_app a : forall r b, rstepsH r (a ++ b) = match rstepsH r a with Some r' => rstepsH r' b | None => None end.
  Proof. induction a as [|l a IH]; intros r b; cbn [rsteps List.app]; [reflexivity|]. destruct (rstepH r l); [apply IH|reflexivity]. Qed.
  Lemma nsteps_app a : forall s b, nstepsH s (a ++ b) = match nstepsH s a with Some s' => nstepsH s' b | None => None end.
  Proof. induction a as [|l a IH]; intros r b; cbn [nsteps List.app]; [reflexivity|]. destruct (nstepH r l); [apply IH|reflexivity]. Qed.
  Lemma inv_nsteps ls : forall s ws cs s', inv s ws cs -> nstepsH s ls = Some s' ->
    exists ws' cs', inv s' ws' cs' /\ (busy -> total cs' n + List.length (filter proc_label ls) <= total cs n) /\ exists rl, rstepsH (n_rd s) rl = Some (n_rd s').
  Proof.
    induction ls as [|l ls IH]; intros s ws cs s' I; cbn [nsteps].
    - intros E. injection E as <-. exists ws, cs. split; [exact I|]. split; [cbn; lia|]. now exists [].
    - destruct (nstepH s l) as [s1|] eqn:E; [|discriminate]. intros E2. destruct (inv_nstep s ws cs l s1 I E) as (ws1 & cs1 & I1 & T1 & rl & R).
      destruct (IH s1 ws1 cs1 s' I1 E2) as (ws2 & cs2 & I2 & T2 & rl2 & R2). exists ws2, cs2. split; [exact I2|]. split.
      + intros B. specialize (T1 B). specialize (T2 B). cbn [filter]. destruct (proc_label l); cbn [List.length]; lia.
      + exists (rl ++ rl2). now rewrite rsteps_app, R.
  Qed.
  Lemma inv_start h progs inp ws cs : (see 0 0 = None -> inp = []) -> RI (r_init H h) -> List.length progs = S n ->
    (forall i q, nth_error progs i = Some q ->
       givesn (cs i) q (match i with 0 => inp | S j => ws j end) (closing i) (ws i) (es i) /\
       (C -> heeds (okf i) q) /\ (C -> es i = None -> lively q) /\ (T -> forall j, i = S j -> reads_all q (ws j))) ->
    ws n = out -> inv (net_start H h progs inp) ws cs.
  Proof.
    intros Z R L X Y. 
    assert (Get : forall i q, nth i (map Some progs) None = Some q -> nth_error progs i = Some q).
    { clear. revert progs. intros progs i. revert progs. induction i as [|i IH]; intros [|p ps] q; cbn; try discriminate; auto. }
    assert (Live : forall i, i <= n -> nth i (map Some progs) None <> None).
    { intros i Hi. rewrite nth_indep with (d' := Some (Exits true)) by (rewrite map_length; lia). rewrite map_nth. discriminate. }
    unfold net_start. constructor; cbn [n_procs n_rd n_pipes n_in n_ok].
    - now rewrite map_length.
    - intros i q E. left. destruct (X i q (Get i q E)) as (A & _). destruct i; exact A.
    - intros i Hi E. now apply Live in E.
    - exact Y.
    - unfold live. cbn. destruct (nth n (map Some progs) None) eqn:E; [reflexivity|]. now apply Live in E; [|lia].
    - exact Z.
    - exact R.
    - intros HC i q E. now apply (X i q (Get i q E)).
    - intros HC i Hi E. now apply Live in E.
    - intros HC i q E Ei. left. now apply (X i q (Get i q E)).
    - intros HC j q E. left. exact (proj2 (proj2 (proj2 (X (S j) q (Get (S j) q E)))) HC j eq_refl).
    - intros HC j Hj E. now apply Live in E; [|lia].
    - reflexivity.
  Qed.

  (** ** Progress *)
  Hypothesis Hcap : 0 < cap.
  (** Steps of the reader only, not past the end of file check. *)
  Definition reader_step (l : label) : Prop := match l with LFeed _ | LClose | LAtEof _ => False | _ => True end.
  Lemma reader_step_only l : reader_step l -> reader_only l.
  Proof. destruct l; cbn; auto. Qed.
  Definition drains (r r' : rstate H) : Prop := exists rl, Forall reader_step rl /\ rstepsH r rl = Some r'.
  Hypothesis D1 : forall r, RI r -> r_pend r <> [] -> exists r', drains r r' /\ List.length (r_pend r') < List.length (r_pend r).
  Hypothesis D2 : forall r, RI r -> r_pend r = [] -> r_wopen r = false -> exists r', drains r r' /\ r_phase r' = PAtEof.
  (** Steps other than the last one of the iteration. *)
  Definition gentle (l : nlabel) : Prop := match l with NAtEof _ => False | _ => True end.
  Definition gets (s s' : net H) : Prop := exists ls, Forall gentle ls /\ nstepsH s ls = Some s'.
  Lemma gets_refl s : gets s s.
  Proof. exists []. now split. Qed.
  Lemma gets_step s l s1 s2 : gentle l -> nstepH s l = Some s1 -> gets s1 s2 -> gets s s2.
  Proof. intros G E (ls & F & E2). exists (l :: ls). split; [now constructor|]. cbn [nsteps]. now rewrite E. Qed.
  Lemma gets_trans s s1 s2 : gets s s1 -> gets s1 s2 -> gets s s2.
  Proof. intros (l1 & F1 & E1) (l2 & F2 & E2). exists (l1 ++ l2). split; [now apply Forall_app|]. now rewrite nsteps_app, E1. Qed.
  Lemma gets_proc s i s1 s2 : proc_stepH s i = Some s1 -> gets s1 s2 -> gets s s2.
  Proof. intros E. apply gets_step with (l := NProc i); [exact Logic.I|exact E]. Qed.
  Definition to_n (l : label) : nlabel := match l with LReadable m => NReadable m | LNext => NNext | LWake => NWake | LAtEof ok => NAtEof ok | _ => NNext end.
  Lemma drains_net s ws cs r' : inv s ws cs -> drains (n_rd s) r' ->
    inv (mkN (n_procs s) (n_pipes s) (n_in s) r' (n_ok s)) ws cs /\ gets s (mkN (n_procs s) (n_pipes s) (n_in s) r' (n_ok s)).
  Proof.
    intros I (rl & F & E). revert s I E. induction F as [|l rl O F IH]; intros s I; cbn [rsteps].
    - intros E. injection E as <-. destruct s as [a b c d e]. cbn in *. split; [exact I|]. apply gets_refl.
    - destruct (rstepH (n_rd s) l) as [r1|] eqn:E1; [|discriminate]. intros E2.
      assert (S1 : nstepH s (to_n l) = Some (mkN (n_procs s) (n_pipes s) (n_in s) r1 (n_ok s))).
      { destruct l; cbn in O; try contradiction; unfold nstep; cbn [to_n reader_label may negb]; now rewrite E1. }
      destruct (IH _ (inv_read s ws cs l r1 I (reader_step_only _ O) E1) E2) as [I' El]. split; [exact I'|].
      eapply gets_step; [|exact S1|exact El]. destruct l; cbn in O |- *; auto.
  Qed.

  Lemma proc_step_pipes s i s' : i <= n -> proc_stepH s i = Some s' -> forall k, i < k -> n_pipes s' (np + k) = n_pipes s (np + k).
  Proof.
    intros Hi E k Hk. unfold proc_step in E. destruct (nth i (n_procs s) None) as [q|] eqn:Eq; [|discriminate]. destruct q as [f|b f|ok].
    - destruct i as [|j].
      + destruct (see 0 0) as [[?|k'|?|? ?|?]|] eqn:E0; try (destruct (n_in s); injection E as <-; reflexivity); try (injection E as <-; reflexivity).
        assert (Ek : k' < np) by now apply Hin0. unfold ours in E. destruct (Nat.leb_spec np k'); [lia|]. destruct (n_in s); injection E as <-; reflexivity.
      + rewrite (HinS j) in E by lia. rewrite ours_plus in E. unfold content in E. rewrite K_not_pipe in E by lia. destruct (n_pipes s (np + j)).
        * destruct (writer s _ _); [discriminate|]. injection E as <-. reflexivity.
        * injection E as <-. cbn. unfold pop. rewrite K_not_pipe by lia. cbn. destruct (Nat.eqb_spec (np + k) (np + j)); [lia|reflexivity].
    - rewrite Hout, ours_plus in E by lia. destruct (negb _); [injection E as <-; reflexivity|]. destruct (_ <? cap); [|discriminate]. injection E as <-. cbn. unfold push.
      destruct (Nat.eqb_spec (np + i) K); cbn; [reflexivity|]. destruct (Nat.eqb_spec (np + k) (np + i)); [lia|reflexivity].
    - injection E as <-. reflexivity.
  Qed.
  Lemma proc_step_pend s i s' : proc_stepH s i = Some s' -> List.length (r_pend (n_rd s')) <= S (List.length (r_pend (n_rd s))).
  Proof.
    unfold proc_step, becomes, gone, push, pop. intros E.
    repeat match type of E with context [match ?e with _ => _ end] => destruct e end; try discriminate; injection E as <-; cbn; try lia; try (rewrite app_length; cbn; lia);
      try (destruct (r_pend (n_rd s)); cbn; lia).
  Qed.
  (** *** First, the last process comes to its end: whoever is needed for that can go on. *)
  Definition nonstop (ws : nat -> list N) (i : nat) : Prop := ws i <> [] \/ es i <> None.
  Lemma reads_given s ws cs i f : inv s ws cs -> C -> nth i (n_procs s) None = Some (Reads f) -> givesn (cs i) (Reads f) (feed s ws i) (closing i) (ws i) (es i).
  Proof. intros I HC E. destruct (i_live s ws cs I i _ E) as [D|(_ & _ & _ & D)]; [exact D|]. specialize (D HC). discriminate. Qed.
  Lemma read_can s ws cs i f : inv s ws cs -> nth i (n_procs s) None = Some (Reads f) ->
    (forall j, i = S j -> n_pipes s (np + j) <> [] \/ dead s j) -> exists o s', proc_stepH s i = Some s' /\ nth i (n_procs s') None = Some (f o) /\ forall k, i <= k -> n_pipes s' (np + k) = n_pipes s (np + k).
  Proof.
    intros I Eq Hup. pose proof (nth_some_lt _ _ _ Eq) as Hi. pose proof Hi as Hi'. rewrite (i_len s ws cs I) in Hi'.
    assert (G : forall s1 o, n_procs s1 = n_procs s -> nth i (n_procs (becomes H s1 i (f o))) None = Some (f o)).
    { intros s1 o E. cbn. rewrite E, nth_set_nth, Nat.eqb_refl by exact Hi. reflexivity. }
    unfold proc_step. rewrite Eq. destruct i as [|j].
    - destruct (see 0 0) as [[?|k'|?|? ?|?]|] eqn:E0; try (destruct (n_in s); eexists _, _; (split; [reflexivity|split; [now apply G|reflexivity]])); try (eexists _, _; (split; [reflexivity|split; [now apply G|reflexivity]])).
      assert (Ek : k' < np) by now apply Hin0. unfold ours. destruct (Nat.leb_spec np k'); [lia|]. destruct (n_in s); eexists _, _; (split; [reflexivity|split; [now apply G|reflexivity]]).
    - rewrite (HinS j) by lia. rewrite ours_plus. unfold content. rewrite K_not_pipe by lia. destruct (n_pipes s (np + j)) eqn:Ep.
      + destruct (Hup j eq_refl) as [X|X]; [congruence|]. rewrite writer_spec by lia. unfold live. rewrite X. eexists _, _. split; [reflexivity|]. split; [now apply G|reflexivity].
      + unfold pop. rewrite K_not_pipe by lia. eexists _, _. split; [reflexivity|]. split; [now apply G|]. intros k Hk. cbn. destruct (Nat.eqb_spec (np + k) (np + j)); [lia|reflexivity].
  Qed.
  Lemma demand i : forall s ws cs q, C -> inv s ws cs -> nth i (n_procs s) None = Some q -> nonstop ws i ->
    List.length (content H K s (np + i)) < cap -> exists j s', j <= i /\ nonstop ws j /\ proc_stepH s j = Some s'.
  Proof.
    induction i as [|i IH]; intros s ws cs q HC I Eq Ns Hc; pose proof (nth_some_lt _ _ _ Eq) as Hi; rewrite (i_len s ws cs I) in Hi; destruct q as [f|b f|ok].
    - destruct (read_can s ws cs 0 f I Eq) as (o & s' & E & _); [discriminate|]. exists 0, s'. auto.
    - exists 0. unfold proc_step. rewrite Eq, Hout, ours_plus by lia. apply Nat.ltb_lt in Hc. rewrite Hc. destruct (negb _); eexists; (split; [lia|split; [exact Ns|reflexivity]]).
    - exists 0. unfold proc_step. rewrite Eq. eexists; (split; [lia|split; [exact Ns|reflexivity]]).
    - destruct (n_pipes s (np + i)) as [|b r] eqn:Ep.
      + destruct (nth i (n_procs s) None) as [q'|] eqn:Eq'.
        * assert (Nj : nonstop ws i).
          { destruct (ws i) as [|b0 w0] eqn:Ew; [|left; congruence]. destruct (es i) eqn:Ee; [right; congruence|]. exfalso.
            pose proof (reads_given s ws cs _ _ I HC Eq) as D. apply givesn_reads in D as [D _]. destruct D as [X Y]; [cbn; now rewrite Ep, Ew|cbn; now rewrite Ee|]. destruct Ns; congruence. }
          destruct (IH s ws cs q' HC I Eq' Nj) as (j & s' & A & B & E); [unfold content; rewrite K_not_pipe, Ep by lia; exact Hcap|]. exists j, s'. auto.
        * destruct (read_can s ws cs (S i) f I Eq) as (o & s' & E & _); [intros j Ej; injection Ej as <-; auto|]. exists (S i), s'. auto.
      + destruct (read_can s ws cs (S i) f I Eq) as (o & s' & E & _); [intros j Ej; injection Ej as <-; left; congruence|]. exists (S i), s'. auto.
    - exists (S i). unfold proc_step. rewrite Eq, Hout, ours_plus by lia. apply Nat.ltb_lt in Hc. rewrite Hc. destruct (negb _); eexists; (split; [lia|split; [exact Ns|reflexivity]]).
    - exists (S i). unfold proc_step. rewrite Eq. eexists; (split; [lia|split; [exact Ns|reflexivity]]).
  Qed.
  Lemma last_ends k : forall s ws cs, C -> inv s ws cs -> 2 * total cs n + List.length (r_pend (n_rd s)) <= k ->
    exists s' ws' cs', gets s s' /\ inv s' ws' cs' /\ dead s' n.
  Proof.
    induction k as [k IH] using lt_wf_ind. intros s ws cs HC I Hk. destruct (nth n (n_procs s) None) as [q|] eqn:Eq; [|exists s, ws, cs; split; [apply gets_refl|auto]].
    destruct (r_pend (n_rd s)) as [|b0 r0] eqn:Ep.
    - destruct (demand n s ws cs q HC I Eq (or_intror Hes)) as (j & s' & Hj & Nj & E); [unfold content; rewrite Nat.eqb_refl, Ep; exact Hcap|].
      destruct (inv_proc s ws cs j s' I E) as (ws' & c & I' & _ & Le & Lt & _). specialize (Lt HC Nj). pose proof (total_upd cs j c n Hj Lt) as T'.
      pose proof (proc_step_pend s j s' E) as Pp. rewrite Ep in Pp. cbn in Pp, Hk.
      destruct (IH (2 * total (upd cs j c) n + List.length (r_pend (n_rd s'))) ltac:(lia) s' ws' _ HC I' (le_n _)) as (s2 & ws2 & cs2 & E2 & R).
      exists s2, ws2, cs2. split; [|exact R]. eapply gets_proc; eassumption.
    - destruct (D1 _ (i_rd s ws cs I)) as (r' & Dr & Lt); [congruence|]. destruct (drains_net s ws cs r' I Dr) as [I' E].
      rewrite Ep in Lt. cbn [List.length] in Lt, Hk.
      destruct (IH (2 * total cs n + List.length (r_pend r')) ltac:(lia) _ ws cs HC I' ltac:(cbn; lia)) as (s2 & ws2 & cs2 & E2 & R).
      exists s2, ws2, cs2. split; [|exact R]. eapply gets_trans; eassumption.
  Qed.
  (** *** Then the others, from the last to the first: each comes to write or exit. *)
  Definition led (i : nat) (s : net H) (ws : nat -> list N) (cs : nat -> nat) (s' : net H) (ws' : nat -> list N) (cs' : nat -> nat) : Prop :=
    gets s s' /\ inv s' ws' cs' /\
    forall j, i < j -> nth j (n_procs s') None = nth j (n_procs s) None /\ cs' j = cs j /\ n_pipes s' (np + j) = n_pipes s (np + j).
  Lemma led_refl i s ws cs : inv s ws cs -> led i s ws cs s ws cs.
  Proof. intros I. split; [apply gets_refl|]. split; [exact I|]. auto. Qed.
  Lemma led_trans i k s ws cs s1 ws1 cs1 s2 ws2 cs2 : i <= k -> led i s ws cs s1 ws1 cs1 -> led k s1 ws1 cs1 s2 ws2 cs2 -> led k s ws cs s2 ws2 cs2.
  Proof.
    intros Hik (E1 & _ & F1) (E2 & I2 & F2). split; [eapply gets_trans; eassumption|]. split; [exact I2|].
    intros j Hj. destruct (F1 j ltac:(lia)) as (A & B & D). destruct (F2 j Hj) as (A' & B' & D'). rewrite A', B', D'. auto.
  Qed.
  Lemma led_step i s ws cs s' : i <= n -> inv s ws cs -> proc_stepH s i = Some s' -> exists ws' c, led i s ws cs s' ws' (upd cs i c) /\ c <= cs i /\ (C -> nonstop ws i -> c < cs i).
  Proof.
    intros Hi I E. destruct (inv_proc s ws cs i s' I E) as (ws' & c & I' & _ & Le & Lt & _). exists ws', c. split; [|auto].
    split; [eapply gets_proc; [exact E|apply gets_refl]|]. split; [exact I'|].
    intros j Hj. destruct (proc_step_frame s i s' E) as (_ & F & _). rewrite (F j ltac:(lia)). rewrite upd_ne by lia. rewrite (proc_step_pipes s i s' Hi E j Hj). auto.
  Qed.
  Definition quiet (q : prog) : Prop := match q with Reads _ => False | _ => True end.
  Definition serves (i : nat) : Prop := forall s ws cs q q', C -> inv s ws cs -> nth i (n_procs s) None = Some q -> nth (S i) (n_procs s) None = Some q' ->
    n_pipes s (np + i) = [] -> exists s' ws' cs', led i s ws cs s' ws' cs' /\ (n_pipes s' (np + i) <> [] \/ dead s' i).
  (** A process that wants to read can be made to read. *)
  Lemma fed i : i < n -> (forall j, j < i -> serves j) -> forall s ws cs f, C -> inv s ws cs -> nth i (n_procs s) None = Some (Reads f) ->
    exists o s' ws' cs', led i s ws cs s' ws' cs' /\ nth i (n_procs s') None = Some (f o) /\ n_pipes s' (np + i) = n_pipes s (np + i) /\ (es i <> None -> cs' i < cs i).
  Proof.
    intros Hi Sv s ws cs f HC I Eq.
    assert (Go : forall s1 ws1 cs1, inv s1 ws1 cs1 -> nth i (n_procs s1) None = Some (Reads f) -> (forall j, i = S j -> n_pipes s1 (np + j) <> [] \/ dead s1 j) ->
       exists o s' ws' cs', led i s1 ws1 cs1 s' ws' cs' /\ nth i (n_procs s') None = Some (f o) /\ n_pipes s' (np + i) = n_pipes s1 (np + i) /\ (es i <> None -> cs' i < cs1 i)).
    { intros s1 ws1 cs1 I1 Eq1 Hup. destruct (read_can s1 ws1 cs1 i f I1 Eq1 Hup) as (o & s2 & E & A & B).
      destruct (led_step i s1 ws1 cs1 s2 ltac:(lia) I1 E) as (ws2 & c & L & _ & Lt). exists o, s2, ws2, (upd cs1 i c). split; [exact L|]. split; [exact A|]. split; [now apply B|].
      intros Ne. rewrite upd_eq. apply (Lt HC). now right. }
    destruct i as [|j]; [apply Go; auto; discriminate|].
    destruct (n_pipes s (np + j)) as [|b r] eqn:Ep; [|apply Go; auto; intros j' E; injection E as <-; left; congruence].
    destruct (nth j (n_procs s) None) as [q|] eqn:Ej; [|apply Go; auto; intros j' E; injection E as <-; auto].
    destruct (Sv j ltac:(lia) s ws cs q _ HC I Ej Eq Ep) as (s1 & ws1 & cs1 & L1 & Hup). pose proof L1 as (_ & I1 & F1). destruct (F1 (S j) ltac:(lia)) as (A1 & B1 & D1').
    destruct (Go s1 ws1 cs1 I1) as (o & s2 & ws2 & cs2 & L2 & A2 & B2 & D2'); [congruence|intros j' E; injection E as <-; exact Hup|].
    exists o, s2, ws2, cs2. split; [eapply led_trans; [|exact L1|exact L2]; lia|]. split; [exact A2|]. split; [congruence|]. now rewrite <- B1.
  Qed.
  Lemma acts i : i < n -> (forall j, j < i -> serves j) -> forall s ws cs q, C -> inv s ws cs -> nth i (n_procs s) None = Some q ->
    exists s' ws' cs' q', led i s ws cs s' ws' cs' /\ nth i (n_procs s') None = Some q' /\ n_pipes s' (np + i) = n_pipes s (np + i) /\ quiet q'.
  Proof.
    intros Hi Sv s ws cs q HC I Eq. pose proof (fed i Hi Sv) as Fd.
    assert (Now : quiet q -> exists s' ws' cs' q', led i s ws cs s' ws' cs' /\ nth i (n_procs s') None = Some q' /\ n_pipes s' (np + i) = n_pipes s (np + i) /\ quiet q').
    { intros Q. exists s, ws, cs, q. split; [now apply led_refl|]. auto. }
    destruct (es i) as [ok|] eqn:Ee.
    - assert (G : forall k s ws cs q, inv s ws cs -> nth i (n_procs s) None = Some q -> cs i <= k -> exists s' ws' cs' q', led i s ws cs s' ws' cs' /\ nth i (n_procs s') None = Some q' /\ n_pipes s' (np + i) = n_pipes s (np + i) /\ quiet q').
      { clear s ws cs q I Eq Now. induction k as [|k IH]; intros s ws cs q I Eq Hk.
        - exfalso. assert (0 < cs i); [|lia]. destruct (i_live s ws cs I i q Eq) as [D|(_ & _ & D & _)]; [eapply givesn_pos; eauto|exact D].
        - destruct q as [f|b f|okx]; try (eexists s, ws, cs, _; split; [now apply led_refl|]; split; [exact Eq|]; split; [reflexivity|exact Logic.I]).
          destruct (Fd s ws cs f HC I Eq) as (o & s1 & ws1 & cs1 & L1 & A1 & B1 & Lt). specialize (Lt ltac:(discriminate)). pose proof L1 as (_ & I1 & _).
          destruct (IH s1 ws1 cs1 (f o) I1 A1 ltac:(lia)) as (s2 & ws2 & cs2 & q2 & L2 & A2 & B2 & Q2). exists s2, ws2, cs2, q2. split; [eapply led_trans; [|exact L1|exact L2]; lia|]. split; [exact A2|]. split; [congruence|exact Q2]. }
      apply (G (cs i) s ws cs q I Eq (le_n _)).
    - destruct (i_lively s ws cs I HC i q Eq Ee) as [Lv|(_ & _ & ->)]; [|now apply Now].
      apply lively_soon in Lv. clear Now. revert s ws cs I Eq. induction Lv as [okx|b f|f S IH]; intros s ws cs I Eq; try (eexists s, ws, cs, _; split; [now apply led_refl|]; split; [exact Eq|]; split; [reflexivity|exact Logic.I]).
      destruct (Fd s ws cs f HC I Eq) as (o & s1 & ws1 & cs1 & L1 & A1 & B1 & _). pose proof L1 as (_ & I1 & _).
      destruct (IH o s1 ws1 cs1 I1 A1) as (s2 & ws2 & cs2 & q2 & L2 & A2 & B2 & Q2). exists s2, ws2, cs2, q2. split; [eapply led_trans; [|exact L1|exact L2]; lia|]. split; [exact A2|]. split; [congruence|exact Q2].
  Qed.
  Lemma exits s ws cs i ok : i <= n -> inv s ws cs -> nth i (n_procs s) None = Some (Exits ok) -> exists s' ws' cs', led i s ws cs s' ws' cs' /\ dead s' i.
  Proof.
    intros Hi I Eq. assert (E : proc_stepH s i = Some (gone H h_open fds sees shell x K s i ok)) by (unfold proc_step; now rewrite Eq).
    destruct (led_step i s ws cs _ Hi I E) as (ws' & c & L & _). eexists _, _, _. split; [exact L|]. cbn. rewrite nth_set_nth by (eapply nth_some_lt; exact Eq). now rewrite Nat.eqb_refl.
  Qed.
  Lemma serve i : i < n -> serves i.
  Proof.
    induction i as [i IH] using lt_wf_ind. intros Hi s ws cs q q' HC I Eq Eq' Ep.
    destruct (acts i Hi (fun j Hj => IH j Hj ltac:(lia)) s ws cs q HC I Eq) as (s1 & ws1 & cs1 & q1 & L1 & A1 & B1 & Q1). pose proof L1 as (_ & I1 & F1). destruct q1 as [f|b f|ok]; [contradiction| |].
    - destruct (F1 (S i) ltac:(lia)) as (A2 & _).
      assert (E : proc_stepH s1 i = Some (becomes H (push H K s1 (np + i) b) i (f true))).
      { unfold proc_step. rewrite A1, Hout, ours_plus, reader_spec by lia. destruct (Nat.eqb_spec i n); [lia|]. unfold live. rewrite A2, Eq'. cbn [negb].
        unfold content. rewrite K_not_pipe by lia. rewrite B1, Ep. cbn [List.length]. destruct (Nat.ltb_spec 0 cap); [reflexivity|lia]. }
      destruct (led_step i s1 ws1 cs1 _ ltac:(lia) I1 E) as (ws2 & c & L2 & _). eexists _, _, _. split; [eapply led_trans; [|exact L1|exact L2]; lia|]. left.
      cbn. unfold push. rewrite K_not_pipe by lia. cbn. rewrite Nat.eqb_refl. now destruct (n_pipes s1 (np + i)).
    - destruct (exits s1 ws1 cs1 i ok ltac:(lia) I1 A1) as (s2 & ws2 & cs2 & L2 & D). eexists _, _, _. split; [eapply led_trans; [|exact L1|exact L2]; lia|]. now right.
  Qed.
  Lemma kill i s ws cs : i < n -> C -> inv s ws cs -> dead s (S i) -> exists s' ws' cs', led i s ws cs s' ws' cs' /\ dead s' i.
  Proof.
    intros Hi HC I Ed. destruct (nth i (n_procs s) None) as [q|] eqn:Eq; [|exists s, ws, cs; split; [now apply led_refl|exact Eq]].
    destruct (acts i Hi (fun j Hj => serve j ltac:(lia)) s ws cs q HC I Eq) as (s1 & ws1 & cs1 & q1 & L1 & A1 & B1 & Q1). pose proof L1 as (_ & I1 & F1). destruct q1 as [f|b f|ok]; [contradiction| |].
    - destruct (F1 (S i) ltac:(lia)) as (A2 & _). pose proof (i_care s1 ws1 cs1 I1 HC i _ A1) as Cf. apply heeds_writes in Cf as [Cf _].
      assert (E : proc_stepH s1 i = Some (becomes H s1 i (f false))).
      { unfold proc_step. rewrite A1, Hout, ours_plus, reader_spec by lia. destruct (Nat.eqb_spec i n); [lia|]. unfold live. rewrite A2, Ed. reflexivity. }
      rewrite Cf in E. destruct (led_step i s1 ws1 cs1 _ ltac:(lia) I1 E) as (ws2 & c & L2 & _). pose proof L2 as (_ & I2 & _).
      destruct (exits _ ws2 _ i (okf i) ltac:(lia) I2) as (s3 & ws3 & cs3 & L3 & D).
      { cbn. rewrite nth_set_nth by (eapply nth_some_lt; exact A1). now rewrite Nat.eqb_refl. }
      eexists _, _, _. split; [|exact D]. eapply led_trans; [|exact L1|eapply led_trans; [|exact L2|exact L3]]; lia.
    - destruct (exits s1 ws1 cs1 i ok ltac:(lia) I1 A1) as (s2 & ws2 & cs2 & L2 & D). eexists _, _, _. split; [eapply led_trans; [|exact L1|exact L2]; lia|]. exact D.
  Qed.
  Lemma all_end m : m <= n -> forall s ws cs, C -> inv s ws cs -> (forall i, m <= i -> dead s i) ->
    exists s' ws' cs', gets s s' /\ inv s' ws' cs' /\ forall i, dead s' i.
  Proof.
    induction m as [|m IH]; intros Hm s ws cs HC I Hd.
    - exists s, ws, cs. split; [apply gets_refl|]. split; [exact I|]. intros i. apply Hd. lia.
    - destruct (kill m s ws cs ltac:(lia) HC I (Hd (S m) ltac:(lia))) as (s1 & ws1 & cs1 & (E1 & I1 & F1) & D).
      destruct (IH ltac:(lia) s1 ws1 cs1 HC I1) as (s2 & ws2 & cs2 & E2 & R).
      { intros i Hi. destruct (Nat.eq_dec i m) as [->|Ne]; [exact D|]. rewrite (proj1 (F1 i ltac:(lia))). apply Hd. lia. }
      exists s2, ws2, cs2. split; [|exact R]. eapply gets_trans; eassumption.
  Qed.
  (** *** At last the reader. *)
  Lemma reader_ends k : forall s ws cs, inv s ws cs -> (forall i, dead s i) -> List.length (r_pend (n_rd s)) <= k ->
    exists s' ws' cs', gets s s' /\ inv s' ws' cs' /\ (forall i, dead s' i) /\ r_phase (n_rd s') = PAtEof.
  Proof.
    induction k as [k IH] using lt_wf_ind. intros s ws cs I Hd Hk. destruct (r_pend (n_rd s)) as [|b0 r0] eqn:Ep.
    - destruct (D2 _ (i_rd s ws cs I) Ep) as (r' & Dr & P).
      { rewrite (i_wopen s ws cs I). unfold live. now rewrite Hd. }
      destruct (drains_net s ws cs r' I Dr) as [I' E]. exists (mkN (n_procs s) (n_pipes s) (n_in s) r' (n_ok s)), ws, cs. auto.
    - destruct (D1 _ (i_rd s ws cs I)) as (r' & Dr & Lt); [congruence|]. destruct (drains_net s ws cs r' I Dr) as [I' E]. rewrite Ep in Lt. cbn [List.length] in Lt, Hk.
      destruct (IH (List.length (r_pend r')) ltac:(lia) _ ws cs I' Hd (le_n _)) as (s2 & ws2 & cs2 & E2 & R).
      exists s2, ws2, cs2. split; [|exact R]. eapply gets_trans; eassumption.
  Qed.
  Lemma all_gone (s : net H) : List.length (n_procs s) = S n -> (forall i, dead s i) -> forallb (fun p : option prog => match p with Some _ => false | None => true end) (n_procs s) = true.
  Proof. intros L Hd. apply forallb_forall. intros p Hp. apply (In_nth _ _ None) in Hp as (i & Hi & Ei). rewrite Hd in Ei. now subst p. Qed.
  Lemma to_eof s ws cs : C -> inv s ws cs -> exists s' ws' cs', gets s s' /\ inv s' ws' cs' /\ (forall i, dead s' i) /\ r_phase (n_rd s') = PAtEof.
  Proof.
    intros HC I. destruct (last_ends _ s ws cs HC I (le_n _)) as (s1 & ws1 & cs1 & E1 & I1 & Dn).
    destruct (all_end n (le_n _) s1 ws1 cs1 HC I1) as (s2 & ws2 & cs2 & E2 & I2 & Da).
    { intros i Hi. destruct (Nat.eq_dec i n) as [->|Ne]; [exact Dn|]. apply nth_overflow. rewrite (i_len s1 ws1 cs1 I1). lia. }
    destruct (reader_ends _ s2 ws2 cs2 I2 Da (le_n _)) as (s3 & ws3 & cs3 & E3 & R). exists s3, ws3, cs3. split; [|exact R]. eapply gets_trans; [exact E1|]. eapply gets_trans; eassumption.
  Qed.
  Lemma finishes s ws cs : C -> inv s ws cs -> exists ls s', nstepsH s ls = Some s' /\ ended (r_out (n_rd s')).
  Proof.
    intros HC I. destruct (to_eof s ws cs HC I) as (s1 & ws1 & cs1 & (ls & _ & E) & I1 & Da & P).
    exists (ls ++ [NAtEof (n_ok s1)]). eexists. rewrite nsteps_app, E. cbn [nsteps]. unfold nstep. cbn [may reader_label]. rewrite (all_gone s1 (i_len _ _ _ I1) Da).
    unfold rstep. rewrite P. rewrite Bool.eqb_reflx. cbn [andb negb]. split; [reflexivity|]. cbn. unfold ended. rewrite !in_app_iff. destruct (n_ok s1); cbn; auto.
  Qed.
End Chain.

(** ** The two readers *)
Definition bdrains := drains byte_handler byte_wants byte_event byte_next byte_resume bi_open.
Definition ldrains := drains line_handler line_wants line_event line_next line_next li_open.
Lemma bdrains_step s l s1 s2 : reader_step l -> byte_step true s l = Some s1 -> bdrains s1 s2 -> bdrains s s2.
Proof. intros O E (rl & F & R). exists (l :: rl). split; [now constructor|]. cbn [rsteps]. unfold byte_step in E. now rewrite E. Qed.
Lemma bdrains_refl s : bdrains s s.
Proof. now exists []. Qed.
Lemma ldrains_step s l s1 s2 : reader_step l -> line_step true s l = Some s1 -> ldrains s1 s2 -> ldrains s s2.
Proof. intros O E (rl & F & R). exists (l :: rl). split; [now constructor|]. cbn [rsteps]. unfold line_step in E. now rewrite E. Qed.
Lemma ldrains_refl s : ldrains s s.
Proof. now exists []. Qed.
Lemma pend_open_b s : BInv s -> r_pend s <> [] -> bi_open (r_h s) = true.
Proof. intros I P. rewrite (b_open s I). destruct (bi_eof (r_h s)) eqn:E; [|reflexivity]. destruct (b_eof s I E). congruence. Qed.
Lemma pend_open_l s : LInv s -> r_pend s <> [] -> li_open (r_h s) = true.
Proof. intros I P. rewrite (l_open s I). destruct (li_eof (r_h s)) eqn:E; [|reflexivity]. destruct (l_eof s I E). congruence. Qed.
(** A handler with nothing buffered reads. *)
Lemma byte_reads s : BInv s -> r_pend s <> [] -> bi_buf (r_h s) = None -> exists s', byte_step true s (LReadable 1) = Some s' /\ List.length (r_pend s') < List.length (r_pend s).
Proof.
  intros I P B. unfold byte_step, rstep, readable. rewrite (pend_open_b s I P). unfold read_ok, byte_wants. rewrite B.
  destruct (r_pend s) as [|b r] eqn:Ep; [congruence|]. rewrite orb_true_r. cbn [andb].
  cbn [List.length Nat.leb andb]. destruct (byte_event _ _) as [h w]. eexists. split; [reflexivity|]. cbn. lia.
Qed.
Lemma byte_takes s : BInv s -> bi_buf (r_h s) <> None -> exists l s', reader_step l /\ byte_step true s l = Some s' /\ bi_buf (r_h s') = None /\ r_pend s' = r_pend s /\ r_wopen s' = r_wopen s /\ bi_eof (r_h s') = bi_eof (r_h s) /\ r_phase s' = PIdle.
Proof.
  intros I B. destruct (r_phase s) eqn:Ep.
  - exists LNext. unfold byte_step, rstep. rewrite Ep. unfold byte_next. destruct (bi_buf (r_h s)) eqn:Eb; [|congruence]. eexists. split; [exact Logic.I|]. split; [reflexivity|]. cbn. auto.
  - destruct (b_wait s I Ep) as (_ & X & _). congruence.
  - exists LWake. unfold byte_step, rstep. rewrite Ep. eexists. split; [exact Logic.I|]. split; [reflexivity|]. cbn. auto.
  - destruct (b_ateof s I Ep) as [_ X]. congruence.
Qed.
Lemma byte_D1 s : BInv s -> r_pend s <> [] -> exists s', bdrains s s' /\ List.length (r_pend s') < List.length (r_pend s).
Proof.
  intros I P. destruct (bi_buf (r_h s)) eqn:Eb.
  - destruct (byte_takes s I) as (l & s1 & O & E & B & Pp & _); [congruence|]. pose proof (BInv_step true s l s1 I E) as I1.
    destruct (byte_reads s1 I1) as (s2 & E2 & Lt); [congruence|exact B|]. exists s2. rewrite Pp in Lt. split; [|exact Lt].
    eapply bdrains_step; [exact O|exact E|]. eapply bdrains_step; [|exact E2|apply bdrains_refl]. exact Logic.I.
  - destruct (byte_reads s I P Eb) as (s2 & E2 & Lt). exists s2. split; [|exact Lt]. eapply bdrains_step; [|exact E2|apply bdrains_refl]. exact Logic.I.
Qed.
Lemma byte_stops s : BInv s -> bi_buf (r_h s) = None -> bi_eof (r_h s) = true -> r_phase s = PIdle \/ r_phase s = PAtEof -> exists s', bdrains s s' /\ r_phase s' = PAtEof.
Proof.
  intros I B E [P|P]; [|exists s; split; [apply bdrains_refl|exact P]].
  eexists. split.
  - eapply bdrains_step with (l := LNext); [exact Logic.I|unfold byte_step, rstep; rewrite P; unfold byte_next; rewrite B, E; cbn [after]; reflexivity|]. apply bdrains_refl.
  - reflexivity.
Qed.
Lemma byte_ends s : BInv s -> bi_eof (r_h s) = true -> exists s', bdrains s s' /\ r_phase s' = PAtEof.
Proof.
  intros I E. destruct (bi_buf (r_h s)) eqn:Eb.
  - destruct (byte_takes s I) as (l & s1 & O & E1 & B & _ & _ & Ee & P); [congruence|]. pose proof (BInv_step true s l s1 I E1) as I1.
    destruct (byte_stops s1 I1 B) as (s2 & D & G); [congruence|now left|]. exists s2. split; [|exact G]. eapply bdrains_step; [exact O|exact E1|exact D].
  - apply byte_stops; auto. destruct (r_phase s) eqn:P; auto.
    + destruct (b_wait s I P) as (_ & _ & X). congruence.
    + now destruct (b_woken s I P).
Qed.
Lemma byte_eof_read s : BInv s -> r_pend s = [] -> r_wopen s = false -> bi_buf (r_h s) = None -> bi_eof (r_h s) = false ->
  exists s', byte_step true s (LReadable 0) = Some s' /\ bi_eof (r_h s') = true.
Proof.
  intros I P W B E. unfold byte_step, rstep, readable, read_ok. rewrite (b_open s I), E, W, P. cbn [negb andb orb Nat.eqb]. unfold byte_wants, byte_event. rewrite B. cbn.
  eexists. split; [reflexivity|]. cbn. unfold byte_wants. rewrite B. cbn. apply orb_true_r.
Qed.
Lemma byte_D2 s : BInv s -> r_pend s = [] -> r_wopen s = false -> exists s', bdrains s s' /\ r_phase s' = PAtEof.
Proof.
  intros I P W. destruct (bi_eof (r_h s)) eqn:E; [now apply byte_ends|].
  assert (Go : forall t, BInv t -> r_pend t = [] -> r_wopen t = false -> bi_buf (r_h t) = None -> bi_eof (r_h t) = false -> exists s', bdrains t s' /\ r_phase s' = PAtEof).
  { intros t It Pt Wt Bt Et. destruct (byte_eof_read t It Pt Wt Bt Et) as (t1 & S1 & E1). pose proof (BInv_step true t _ t1 It S1) as I1.
    destruct (byte_ends t1 I1 E1) as (s2 & D & G). exists s2. split; [|exact G]. eapply bdrains_step; [|exact S1|exact D]. exact Logic.I. }
  destruct (bi_buf (r_h s)) eqn:Eb; [|now apply Go].
  destruct (byte_takes s I) as (l & s1 & O & E1 & B & P1 & W1 & Ee & _); [congruence|].
  destruct (Go s1 (BInv_step true s l s1 I E1)) as (s2 & D & G); try congruence. exists s2. split; [|exact G]. eapply bdrains_step; [exact O|exact E1|exact D].
Qed.

Lemma line_reads s : LInv s -> r_pend s <> [] -> has_nl (li_buf (r_h s)) = false -> exists s', line_step true s (LReadable 1) = Some s' /\ List.length (r_pend s') < List.length (r_pend s).
Proof.
  intros I P B. unfold line_step, rstep, readable. rewrite (pend_open_l s I P). unfold read_ok, line_wants. rewrite B.
  destruct (r_pend s) as [|b r] eqn:Ep; [congruence|]. rewrite orb_true_r. cbn [andb].
  cbn [List.length Nat.leb andb negb]. destruct (line_event _ _) as [h w]. eexists. split; [reflexivity|]. cbn. lia.
Qed.
(** A buffer with a complete line, or at the end with anything, gets shorter. *)
Lemma line_takes s : LInv s -> has_nl (li_buf (r_h s)) = true \/ (li_eof (r_h s) = true /\ li_buf (r_h s) <> []) ->
  exists l s', reader_step l /\ line_step true s l = Some s' /\ List.length (li_buf (r_h s')) < List.length (li_buf (r_h s)) /\ r_pend s' = r_pend s /\ r_wopen s' = r_wopen s /\ li_eof (r_h s') = li_eof (r_h s).
Proof.
  intros I B.
  assert (G : forall s0, s0 = s -> let s' := after line_handler true s0 (line_next (r_h s)) in
     List.length (li_buf (r_h s')) < List.length (li_buf (r_h s)) /\ r_pend s' = r_pend s /\ r_wopen s' = r_wopen s /\ li_eof (r_h s') = li_eof (r_h s)).
  { intros s0 -> . cbn zeta. unfold line_next. replace (negb (li_eof (r_h s)) && negb (has_nl (li_buf (r_h s)))) with false by (destruct B as [->|[-> _]]; [now rewrite andb_false_r|reflexivity]).
    destruct (li_buf (r_h s)) as [|b r] eqn:Eb; [destruct B as [X|[_ X]]; [discriminate|congruence]|].
    assert (In nl (if has_nl (b :: r) then b :: r else (b :: r) ++ [nl])) as Hin.
    { destruct (has_nl (b :: r)) eqn:X; [now apply has_nl_In|]. apply in_or_app. right. now left. }
    pose proof (split1_spec _ Hin) as Sp. destruct (split1 _) as [l0 r0]. destruct Sp as [Sp _]. cbn [after r_h li_buf r_pend r_wopen li_eof]. split; [|auto].
    pose proof Sp as Sp0. apply (f_equal (@List.length BinNums.N)) in Sp. rewrite !app_length in Sp. cbn [List.length] in Sp |- *. destruct (has_nl (b :: r)) eqn:X; cbn [List.length] in Sp.
    - lia.
    - rewrite app_length in Sp. cbn [List.length] in Sp. destruct l0 as [|c l0]; [|cbn [List.length] in Sp; lia]. exfalso. cbn in Sp0. injection Sp0 as Sp0 _.
      subst b. unfold has_nl in X. cbn in X. discriminate. }
  destruct (r_phase s) eqn:Ep.
  - exists LNext. unfold line_step, rstep. rewrite Ep. eexists. split; [exact Logic.I|]. split; [reflexivity|]. now apply G.
  - destruct (l_wait s I Ep) as (_ & X & Y). destruct B as [B|[B _]]; congruence.
  - exists LWake. unfold line_step, rstep. rewrite Ep. eexists. split; [exact Logic.I|]. split; [reflexivity|]. now apply G.
  - destruct (l_ateof s I Ep) as [_ X]. destruct B as [B|[_ B]]; [|congruence]. rewrite X in B. discriminate.
Qed.
Lemma line_D1 k : forall s, LInv s -> List.length (li_buf (r_h s)) <= k -> r_pend s <> [] -> exists s', ldrains s s' /\ List.length (r_pend s') < List.length (r_pend s).
Proof.
  induction k as [k IH] using lt_wf_ind. intros s I Hk P. destruct (has_nl (li_buf (r_h s))) eqn:Eb.
  - destruct (line_takes s I (or_introl Eb)) as (l & s1 & O & E & Lt & Pp & _). pose proof (LInv_step true s l s1 I E) as I1.
    destruct (IH (List.length (li_buf (r_h s1))) ltac:(lia) s1 I1 (le_n _)) as (s2 & D & L2); [congruence|]. exists s2. rewrite Pp in L2. split; [|exact L2]. eapply ldrains_step; [exact O|exact E|exact D].
  - destruct (line_reads s I P Eb) as (s2 & E2 & Lt). exists s2. split; [|exact Lt]. eapply ldrains_step; [|exact E2|apply ldrains_refl]. exact Logic.I.
Qed.
Lemma line_ends k : forall s, LInv s -> List.length (li_buf (r_h s)) <= k -> li_eof (r_h s) = true -> exists s', ldrains s s' /\ r_phase s' = PAtEof.
Proof.
  induction k as [k IH] using lt_wf_ind. intros s I Hk E. destruct (li_buf (r_h s)) as [|b r] eqn:Eb.
  - assert (St : forall t, t = s -> r_phase s = PIdle \/ r_phase s = PWoken -> exists s1, (line_step true t LNext = Some s1 \/ line_step true t LWake = Some s1) /\ r_phase s1 = PAtEof).
    { intros t -> [P|P]; unfold line_step, rstep; rewrite P; unfold line_next; rewrite E, Eb; cbn [negb andb after]; eexists; (split; [first [left; reflexivity|right; reflexivity]|reflexivity]). }
    assert (Fin : forall t, r_phase t = PAtEof -> exists s', ldrains t s' /\ r_phase s' = PAtEof) by (intros t P; exists t; split; [apply ldrains_refl|exact P]).
    destruct (r_phase s) eqn:P.
    + destruct (St s eq_refl (or_introl eq_refl)) as (s1 & [S1|S1] & P1); destruct (Fin s1 P1) as (s2 & D & G); exists s2; (split; [|exact G]); (eapply ldrains_step; [|exact S1|exact D]); exact Logic.I.
    + destruct (l_wait s I P) as (_ & _ & X). congruence.
    + destruct (St s eq_refl (or_intror eq_refl)) as (s1 & [S1|S1] & P1); destruct (Fin s1 P1) as (s2 & D & G); exists s2; (split; [|exact G]); (eapply ldrains_step; [|exact S1|exact D]); exact Logic.I.
    + now apply Fin.
  - destruct (line_takes s I) as (l & s1 & O & S1 & Lt & _ & _ & Ee); [right; split; [exact E|congruence]|]. rewrite Eb in Lt. pose proof (LInv_step true s l s1 I S1) as I1.
    destruct (IH (List.length (li_buf (r_h s1))) ltac:(lia) s1 I1 (le_n _)) as (s2 & D & G); [congruence|]. exists s2. split; [|exact G]. eapply ldrains_step; [exact O|exact S1|exact D].
Qed.
Lemma line_D2 k : forall s, LInv s -> List.length (li_buf (r_h s)) <= k -> r_pend s = [] -> r_wopen s = false -> exists s', ldrains s s' /\ r_phase s' = PAtEof.
Proof.
  induction k as [k IH] using lt_wf_ind. intros s I Hk P W. destruct (li_eof (r_h s)) eqn:E; [eapply line_ends; [exact I|apply le_n|exact E]|].
  destruct (has_nl (li_buf (r_h s))) eqn:Eb.
  - destruct (line_takes s I (or_introl Eb)) as (l & s1 & O & S1 & Lt & Pp & Ww & _). pose proof (LInv_step true s l s1 I S1) as I1.
    destruct (IH (List.length (li_buf (r_h s1))) ltac:(lia) s1 I1 (le_n _)) as (s2 & D & G); try congruence. exists s2. split; [|exact G]. eapply ldrains_step; [exact O|exact S1|exact D].
  - assert (exists s1, line_step true s (LReadable 0) = Some s1 /\ li_eof (r_h s1) = true) as (s1 & S1 & E1).
    { unfold line_step, rstep, readable, read_ok. rewrite (l_open s I), E, W, P. cbn [negb andb orb Nat.eqb]. unfold line_event, line_wants. rewrite Eb. cbn.
      eexists. split; [reflexivity|]. cbn. apply orb_true_r. }
    pose proof (LInv_step true s _ s1 I S1) as I1. destruct (line_ends _ s1 I1 (le_n _) E1) as (s2 & D & G). exists s2. split; [|exact G].
    eapply ldrains_step; [|exact S1|exact D]. exact Logic.I.
Qed.

(** ** The end of the iteration comes after the end of the processes *)
Section Ended.
  Variable H : Type.
  Variable h_wants : H -> bool.
  Variable h_event : H -> bytes -> H * bool.
  Variable h_next h_resume : H -> H * outcome.
  Variable h_open : H -> bool.
  Variables np cap : nat.
  Variable fds : list nat.
  Variable sees : list (nat -> option ofd).
  Variable shell : tab.
  Variables x K : nat.
  Notation nstepH := (nstep H h_wants h_event h_next h_resume h_open np cap fds sees shell x K).
  Notation nstepsH := (nsteps H h_wants h_event h_next h_resume h_open np cap fds sees shell x K).
  (** When the iteration has ended, no process is left, and it has raised iff one has failed. *)
  Definition end_gone (s : net H) : Prop :=
    (ended (r_out (n_rd s)) -> forall i, nth i (n_procs s) None = None) /\
    (In GStop (r_out (n_rd s)) -> n_ok s = true) /\ (In GFailed (r_out (n_rd s)) -> n_ok s = false).
  Lemma after_no_end r ho : ended (r_out (after H true r ho)) -> ended (r_out r).
  Proof. destruct ho as [h []]; cbn; auto. intros X. apply ended_app in X as [X|[X|X]]; [exact X|discriminate|discriminate]. Qed.
  Lemma proc_step_out s i s' : proc_step H h_open np cap fds sees shell x K s i = Some s' -> r_out (n_rd s') = r_out (n_rd s).
  Proof.
    unfold proc_step, becomes, gone, push, pop. intros E.
    repeat match type of E with context [match ?e with _ => _ end] => destruct e end; try discriminate; injection E as <-; reflexivity.
  Qed.
  Lemma after_out r ho g : g = GStop \/ g = GFailed -> In g (r_out (after H true r ho)) -> In g (r_out r).
  Proof. intros G. destruct ho as [h []]; cbn; auto. rewrite in_app_iff. cbn. intros [X|[X|[]]]; [exact X|]. destruct G; congruence. Qed.
  Lemma end_gone_step s l s' : end_gone s -> nstepH s l = Some s' -> end_gone s'.
  Proof.
    intros (G & G1 & G2). unfold nstep. destruct (negb (may H s l)) eqn:M; [discriminate|]. apply negb_false_iff in M.
    destruct l as [i|m| | |ok]; cbn [reader_label].
    - intros E. assert (No : ~ ended (r_out (n_rd s))) by (intros X; unfold proc_step in E; rewrite (G X i) in E; discriminate).
      pose proof (proc_step_out s i s' E) as O. unfold end_gone, ended in *. rewrite O. split; [intros X; now destruct No|]. split; intros X; destruct No; auto.
    - unfold rstep. destruct (readable H h_open (n_rd s)); [|discriminate]. destruct (h_wants _); [destruct (read_ok H (n_rd s) m); [|discriminate]|];
        destruct (h_event _ _) as [h w]; intros E; injection E as <-; (split; [exact G|split; [exact G1|exact G2]]).
    - unfold rstep. destruct (r_phase (n_rd s)); try discriminate. intros E. injection E as <-. split; [|split]; cbn [n_rd n_ok n_procs]; intros X.
      + apply G. now apply after_no_end in X.
      + apply G1. apply after_out in X; auto.
      + apply G2. apply after_out in X; auto.
    - unfold rstep. destruct (r_phase (n_rd s)); try discriminate. intros E. injection E as <-. split; [|split]; cbn [n_rd n_ok n_procs]; intros X.
      + apply G. now apply after_no_end in X.
      + apply G1. apply after_out in X; auto.
      + apply G2. apply after_out in X; auto.
    - unfold rstep. destruct (r_phase (n_rd s)); try discriminate. intros E. injection E as <-. cbn [may] in M. apply andb_prop in M as [M M2]. apply eqb_prop in M2.
      unfold end_gone. cbn [n_procs n_rd n_ok r_out]. split; [|split].
      + intros _ i. rewrite forallb_forall in M. destruct (nth i (n_procs s) None) as [q|] eqn:Ei; [|reflexivity]. pose proof (nth_some_lt _ _ _ Ei) as Hi.
        assert (Hin : In (Some q) (n_procs s)) by (rewrite <- Ei; now apply nth_In). specialize (M _ Hin). discriminate.
      + rewrite in_app_iff. intros [X|[X|[]]]; [auto|]. rewrite <- M2. destruct ok; [reflexivity|discriminate].
      + rewrite in_app_iff. intros [X|[X|[]]]; [auto|]. rewrite <- M2. destruct ok; [discriminate|reflexivity].
  Qed.
  Lemma end_gone_steps ls : forall s s', end_gone s -> nstepsH s ls = Some s' -> end_gone s'.
  Proof.
    induction ls as [|l ls IH]; intros s s' G; cbn [nsteps]; [intros E; now injection E as <-|].
    destruct (nstepH s l) as [s1|] eqn:E; [|discriminate]. apply IH. now apply (end_gone_step s l).
  Qed.
  Lemma end_gone_start h progs inp : end_gone (net_start H h progs inp).
  Proof. split; [intros [[]|[]]|split; intros []]. Qed.
  Notation proc_stepE := (proc_step H h_open np cap fds sees shell x K).
  (** Where process [i] is after one of its steps. *)
  Lemma proc_next s i q s' : nth i (n_procs s) None = Some q -> proc_stepE s i = Some s' ->
    match q with
    | Reads f => exists o, nth i (n_procs s') None = Some (f o) /\ n_ok s' = n_ok s
    | Writes b f => exists o, nth i (n_procs s') None = Some (f o) /\ n_ok s' = n_ok s
    | Exits ok => nth i (n_procs s') None = None /\ n_ok s' = n_ok s && ok
    end.
  Proof.
    intros Eq. pose proof (nth_some_lt _ _ _ Eq) as Hi.
    assert (G : forall s1 p, n_procs s1 = n_procs s -> nth i (n_procs (becomes H s1 i p)) None = Some p).
    { intros s1 p E. cbn. rewrite E, nth_set_nth by exact Hi. now rewrite Nat.eqb_refl. }
    assert (Gr : forall s1 f o, n_procs s1 = n_procs s -> n_ok s1 = n_ok s -> exists o', nth i (n_procs (becomes H s1 i (f o))) None = Some (f o' : prog) /\ n_ok (becomes H s1 i (f o)) = n_ok s) by (intros s1 f o E1 E2; exists (o : option N); split; [now apply G|exact E2]).
    assert (Gw : forall s1 f o, n_procs s1 = n_procs s -> n_ok s1 = n_ok s -> exists o', nth i (n_procs (becomes H s1 i (f o))) None = Some (f o' : prog) /\ n_ok (becomes H s1 i (f o)) = n_ok s) by (intros s1 f o E1 E2; exists (o : bool); split; [now apply G|exact E2]).
    unfold proc_step. rewrite Eq. destruct q as [f|b f|ok]; intros X.
    - repeat match type of X with match ?e with _ => _ end = _ => destruct e end; try discriminate; injection X as <-; apply Gr; try reflexivity; unfold pop; destruct (Nat.eqb _ _); reflexivity.
    - repeat match type of X with match ?e with _ => _ end = _ => destruct e end; try discriminate; injection X as <-; apply Gw; try reflexivity; unfold push; destruct (Nat.eqb _ _); reflexivity.
    - injection X as <-. cbn. rewrite nth_set_nth by exact Hi. rewrite Nat.eqb_refl. now split.
  Qed.
  Lemma proc_ok s i s' : proc_stepE s i = Some s' -> n_ok s = false -> n_ok s' = false.
  Proof.
    intros E F. assert (X := E). unfold proc_step in X. destruct (nth i (n_procs s) None) as [q|] eqn:Eq; [clear X|discriminate].
    pose proof (proc_next s i q s' Eq E) as P. destruct q; [destruct P as (? & _ & ->)|destruct P as (? & _ & ->)|destruct P as [_ ->]; rewrite F]; auto.
  Qed.
  (** A property of the state of process [i] that its own steps keep. *)
  Lemma kept (P : net H -> Prop) i :
    (forall s s', n_procs s' = n_procs s -> n_ok s' = n_ok s -> P s -> P s') ->
    (forall s j s', j <> i -> nth i (n_procs s') None = nth i (n_procs s) None -> (n_ok s = false -> n_ok s' = false) -> P s -> P s') ->
    (forall s s', P s -> proc_stepE s i = Some s' -> P s') ->
    forall ls s s', P s -> nstepsH s ls = Some s' -> P s'.
  Proof.
    intros P1 P2 P3. induction ls as [|l ls IH]; intros s s' Ps; cbn [nsteps]; [intros E; now injection E as <-|].
    destruct (nstepH s l) as [s1|] eqn:E; [|discriminate]. apply IH. revert E. unfold nstep. destruct (negb (may H s l)); [discriminate|]. destruct l as [j|m| | |ok].
    2-5: cbn [reader_label]; destruct (rstep _ _ _ _ _ _ _ _ _); [|discriminate]; intros E; injection E as <-; apply (P1 s); auto.
    intros E. destruct (Nat.eq_dec j i) as [->|Ne]; [eapply P3; eauto|]. apply (P2 s j); auto; [|now apply (proc_ok s j)].
    destruct (proc_step_frame s j s1 E) as (_ & F & _). apply F. congruence.
  Qed.
  Definition doomed (i : nat) (s : net H) : Prop :=
    n_ok s = false \/ exists q, nth i (n_procs s) None = Some q /\ (q = Exits false \/ (endless q /\ careful q)).
  Lemma doomed_steps i ls s s' : doomed i s -> nstepsH s ls = Some s' -> doomed i s'.
  Proof.
    apply (kept (doomed i) i).
    - intros t t' E1 E2. unfold doomed. now rewrite E1, E2.
    - intros t j t' _ E1 E2. unfold doomed. rewrite E1. intros [X|X]; auto.
    - intros t t' [X|(q & Eq & X)] E; [left; eapply proc_ok; eauto|]. pose proof (proc_next t i q t' Eq E) as Nx. destruct X as [->|[X Y]].
      + left. destruct Nx as [_ ->]. apply andb_false_r.
      + destruct X as [b f X|f X].
        * destruct Nx as ([|] & Nx & _); right; eexists; (split; [exact Nx|]); inversion Y; subst; auto.
        * destruct Nx as (o & Nx & _). right. eexists. split; [exact Nx|]. right. inversion Y; subst; auto.
  Qed.
  Lemma never_steps i ls s s' : (exists q, nth i (n_procs s) None = Some q /\ never_exits q) -> nstepsH s ls = Some s' -> exists q, nth i (n_procs s') None = Some q /\ never_exits q.
  Proof.
    apply (kept (fun s => exists q, nth i (n_procs s) None = Some q /\ never_exits q) i).
    - intros t t' E1 E2. now rewrite E1.
    - intros t j t' _ E1 E2. now rewrite E1.
    - intros t t' (q & Eq & X) E. pose proof (proc_next t i q t' Eq E) as Nx. destruct X as [b f X|f X]; destruct Nx as (o & Nx & _); eauto.
  Qed.
End Ended.

(** ** From what the programs compute to the invariant *)
Definition is_some {A} (o : option A) : bool := match o with Some _ => true | None => false end.
Lemma all_give_nth progs : forall inp d o e, all_give progs inp d o e -> exists (es : nat -> option bool) (ws : nat -> list N) (cs : nat -> nat),
  (forall i q, nth_error progs i = Some q ->
     givesn (cs i) q (match i with 0 => inp | S j => ws j end) (match i with 0 => d | S j => is_some (es j) end) (ws i) (es i) /\ (es i = None -> lively q)) /\
  (match List.length progs with 0 => o = inp /\ e = d | S m => ws m = o /\ e = is_some (es m) end).
Proof.
  induction progs as [|p ps IH]; intros inp d o e A; inversion A; subst.
  - exists (fun _ => None), (fun _ => []), (fun _ => 0). split; [intros [|i] q E; discriminate E|cbn; auto].
  - match goal with D : gives p inp d ?m (Some ?k), B : all_give ps ?m true o e |- _ => apply gives_givesn in D as [c D]; destruct (IH m true o e B) as (es & ws & cs & X & Y);
      exists (fun i => match i with 0 => Some k | S j => es j end), (fun i => match i with 0 => m | S j => ws j end), (fun i => match i with 0 => c | S j => cs j end); split end.
    + intros [|i] q E; cbn in E |- *; [injection E as <-; split; [assumption|discriminate]|]. specialize (X i q E). now destruct i.
    + cbn. destruct (List.length ps); [destruct Y; subst; split; reflexivity|exact Y].
  - match goal with D : gives p inp d ?m None, B : all_give ps ?m false o e |- _ => apply gives_givesn in D as [c D]; destruct (IH m false o e B) as (es & ws & cs & X & Y);
      exists (fun i => match i with 0 => None | S j => es j end), (fun i => match i with 0 => m | S j => ws j end), (fun i => match i with 0 => c | S j => cs j end); split end.
    + intros [|i] q E; cbn in E |- *; [injection E as <-; split; [assumption|auto]|]. specialize (X i q E). now destruct i.
    + cbn. destruct (List.length ps); [destruct Y; subst; split; reflexivity|exact Y].
Qed.
Lemma does_fun p inp o1 k1 : does p inp o1 k1 -> forall o2 k2, does p inp o2 k2 -> o1 = o2 /\ k1 = k2.
Proof.
  induction 1 as [ok inp|b k inp out ok D IH|k b inp out ok D IH|k out ok D IH]; intros o2 k2 D2; inversion D2; subst; auto.
  match goal with X : does (k true) inp _ _ |- _ => destruct (IH _ _ X) as [-> ->] end. auto.
Qed.
Lemma all_do_nth progs : forall inp o oks, all_do progs inp o oks -> exists (ws : nat -> list N) (cs : nat -> nat),
  (forall i q, nth_error progs i = Some q -> exists ok, nth_error oks i = Some ok /\
     givesn (cs i) q (match i with 0 => inp | S j => ws j end) true (ws i) (Some ok) /\ (all_read progs inp -> reads_all q (match i with 0 => inp | S j => ws j end))) /\
  (match List.length progs with 0 => o = inp | S m => ws m = o end) /\ List.length oks = List.length progs.
Proof.
  induction progs as [|p ps IH]; intros inp o oks A; inversion A; subst.
  - exists (fun _ => []), (fun _ => 0). split; [intros [|i] q E; discriminate E|cbn; auto].
  - match goal with D : does p inp ?m ?k, B : all_do ps ?m o _ |- _ => pose proof D as D0; apply does_gives, gives_givesn in D as [c D]; destruct (IH m o _ B) as (ws & cs & X & Y & Z);
      exists (fun i => match i with 0 => m | S j => ws j end), (fun i => match i with 0 => c | S j => cs j end); split; [|split] end.
    + intros [|i] q E; cbn in E |- *.
      * injection E as <-. eexists. split; [reflexivity|]. split; [assumption|]. intros R. now inversion R.
      * destruct (X i q E) as (ok' & X1 & X2 & X3). exists ok'. split; [exact X1|]. split; [now destruct i|]. intros R. inversion R; subst.
        match goal with D1 : does p inp ?m1 _, D2 : does p inp ?m2 _ |- _ => destruct (does_fun _ _ _ _ D1 _ _ D2) as [<- _] end. destruct i; auto.
    + cbn. destruct (List.length ps); [congruence|exact Y].
    + cbn. now rewrite Z.
Qed.
Lemma all_do_others progs inp o oks : all_do progs inp o oks -> exists (ws : nat -> list N) (cs : nat -> nat),
  (forall i q, nth_error progs i = Some q -> exists ok, nth_error oks i = Some ok /\
     givesn (cs i) q (match i with 0 => inp | S j => ws j end) true (ws i) (Some ok) /\ (others_read progs inp -> forall j, i = S j -> reads_all q (ws j))) /\
  (match List.length progs with 0 => o = inp | S m => ws m = o end) /\ List.length oks = List.length progs.
Proof.
  intros A. destruct A as [inp|p ps inp m o k oks D A].
  - exists (fun _ => []), (fun _ => 0). split; [intros [|i] q E; discriminate E|cbn; auto].
  - pose proof D as D0. apply does_gives, gives_givesn in D as [c D]. destruct (all_do_nth _ _ _ _ A) as (ws & cs & X & Y & Z).
    exists (fun i => match i with 0 => m | S j => ws j end), (fun i => match i with 0 => c | S j => cs j end). split; [|split].
    + intros [|i] q E; cbn in E |- *.
      * injection E as <-. exists k. split; [reflexivity|]. split; [exact D|discriminate].
      * destruct (X i q E) as (ok' & X1 & X2 & X3). exists ok'. split; [exact X1|]. split; [now destruct i|]. intros (m' & k' & D' & R) j Ej. injection Ej as <-.
        destruct (does_fun _ _ _ _ D' _ _ D0) as [-> _]. specialize (X3 R). now destruct i.
    + cbn. destruct (List.length ps); [congruence|exact Y].
    + cbn. now rewrite Z.
Qed.
Lemma all_do_give progs : forall inp o oks, all_do progs inp o oks -> all_give progs inp true o true.
Proof. induction 1; econstructor; [eapply does_gives; eassumption|assumption]. Qed.
