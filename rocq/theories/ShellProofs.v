From Verif Require Import Py PathModel PathProofs EnvModel ExpandModel ExpandSpec ExpandProofs CommandModel CommandProofs BashModel BashSpec BashProofs ShellModel ShellSpec.

(** * base64 *)
Lemma b64val_char n : (n < 64)%N -> b64val (b64char n) = Some n /\ N.eqb (b64char n) c_pad = false.
Proof.
  intros H. assert (X : forallb (fun n => match b64val (b64char n) with Some m => N.eqb m n | None => false end && negb (N.eqb (b64char n) c_pad)) (map N.of_nat (seq 0 64)) = true)
    by (vm_compute; reflexivity).
  rewrite forallb_forall in X. specialize (X n). assert (I : In n (map N.of_nat (seq 0 64))).
  { apply in_map_iff. exists (N.to_nat n). split; [apply N2Nat.id|]. apply in_seq. lia. }
  specialize (X I). apply andb_true_iff in X. destruct X as [A B]. apply negb_true_iff in B. split; [|exact B].
  destruct (b64val (b64char n)); [|discriminate]. apply N.eqb_eq in A. now subst.
Qed.
Lemma a2b_char n r quad left pads : (n < 64)%N -> a2b (b64char n :: r) quad left pads =
  match quad with
  | 0 => a2b r 1 n 0
  | 1 => let* l := a2b r 2 (n mod 16)%N 0 in Ok ((left * 4 + n / 16)%N :: l)
  | 2 => let* l := a2b r 3 (n mod 4)%N 0 in Ok ((left * 16 + n / 4)%N :: l)
  | _ => let* l := a2b r 0 0%N 0 in Ok ((left * 64 + n)%N :: l)
  end.
Proof. intros H. destruct (b64val_char n H) as [A B]. cbn [a2b]. rewrite A, B. reflexivity. Qed.
Ltac dm x k := let q := fresh "q" in let m := fresh "m" in
  pose proof (N.div_mod x k ltac:(lia)); pose proof (N.mod_lt x k ltac:(lia)).
Lemma list_rect3 (P : list N -> Prop) : P [] -> (forall x, P [x]) -> (forall x y, P [x; y]) -> (forall x y z r, P r -> P (x :: y :: z :: r)) -> forall l, P l.
Proof.
  intros A B C D. fix F 1. intros [|x [|y [|z r]]]; [exact A|apply B|apply C|apply D, F].
Qed.
Lemma divs a b k : (k <> 0)%N -> (b < k)%N -> ((a * k + b) / k = a)%N /\ ((a * k + b) mod k = b)%N.
Proof.
  intros K H. split.
  - rewrite N.div_add_l by exact K. rewrite N.div_small by exact H. lia.
  - rewrite N.add_comm, N.mod_add by exact K. now apply N.mod_small.
Qed.
Lemma b64_first r1 r2 q left pads : r1 = r2 -> @a2b r1 q left pads = a2b r2 q left pads. Proof. now intros ->. Qed.
Lemma b64_roundtrip b : Forall byte b -> b64decode (b64encode b) = Ok b.
Proof.
  unfold b64decode. induction b as [|x|x y|x y z r IH] using list_rect3; intros H.
  - reflexivity.
  - inversion H as [|? ? Hx _]; subst. unfold byte in Hx. cbn [b64encode].
    dm x 4%N. set (p := (x / 4)%N) in *. set (q := (x mod 4)%N) in *.
    rewrite a2b_char by lia. cbv iota beta. rewrite a2b_char by lia. cbv iota beta.
    destruct (divs q 0 16) as [D M]; [lia|lia|]. rewrite N.add_0_r in D, M. rewrite D, M.
    cbn [a2b N.eqb Pos.eqb c_pad Nat.leb andb Nat.add bind_res]. do 2 f_equal. lia.
  - inversion H as [|? ? Hx H']; subst. inversion H' as [|? ? Hy _]; subst. unfold byte in Hx, Hy. cbn [b64encode].
    dm x 4%N. dm y 16%N. set (p := (x / 4)%N) in *. set (q := (x mod 4)%N) in *. set (s := (y / 16)%N) in *. set (t := (y mod 16)%N) in *.
    rewrite a2b_char by lia. cbv iota beta. rewrite a2b_char by lia. cbv iota beta.
    destruct (divs q s 16) as [D M]; [lia|lia|]. rewrite D, M.
    rewrite a2b_char by lia. cbv iota beta. destruct (divs t 0 4) as [D2 M2]; [lia|lia|]. rewrite N.add_0_r in D2, M2. rewrite D2, M2.
    cbn [a2b N.eqb Pos.eqb c_pad Nat.leb andb Nat.add bind_res]. do 2 f_equal; [lia|]. f_equal. lia.
  - inversion H as [|? ? Hx H']; subst. inversion H' as [|? ? Hy H2]; subst. inversion H2 as [|? ? Hz Hr]; subst. unfold byte in Hx, Hy, Hz.
    cbn [b64encode List.app]. dm x 4%N. dm y 16%N. dm z 64%N.
    set (p := (x / 4)%N) in *. set (q := (x mod 4)%N) in *. set (s := (y / 16)%N) in *. set (t := (y mod 16)%N) in *.
    set (u := (z / 64)%N) in *. set (v := (z mod 64)%N) in *.
    rewrite a2b_char by lia. cbv iota beta. rewrite a2b_char by lia. cbv iota beta.
    destruct (divs q s 16) as [D M]; [lia|lia|]. rewrite D, M.
    rewrite a2b_char by lia. cbv iota beta. destruct (divs t u 4) as [D2 M2]; [lia|lia|]. rewrite D2, M2.
    rewrite a2b_char by lia. cbv iota beta. rewrite (IH Hr). cbn [bind_res].
    replace (p * 4 + q)%N with x by lia. replace (s * 16 + t)%N with y by lia. replace (u * 64 + v)%N with z by lia. reflexivity.
Qed.
(** The characters of base64 text. *)
Definition b64ok (c : N) : bool := match b64val c with Some _ => true | None => N.eqb c c_pad end.
Lemma b64char_ok n : b64ok (b64char n) = true.
Proof.
  unfold b64ok, b64char. destruct (N.ltb_spec n 26); [|destruct (N.ltb_spec n 52); [|destruct (N.ltb_spec n 62); [|destruct (N.eqb n 62); reflexivity]]];
    unfold b64val; repeat match goal with |- context [ (?a <=? ?b)%N ] => destruct (N.leb_spec a b) end; cbn [andb]; try reflexivity; lia.
Qed.
Lemma b64encode_ok b : forallb b64ok (b64encode b) = true.
Proof.
  induction b as [|x|x y|x y z r IH] using list_rect3; cbn [b64encode List.app forallb]; rewrite ?b64char_ok; try reflexivity. exact IH.
Qed.
Lemma b64_not c t : forallb b64ok t = true -> b64ok c = false -> ~ In c t.
Proof. intros H C I. rewrite forallb_forall in H. specialize (H c I). congruence. Qed.

(** * Options *)
Lemma split_eq_spec s : In 61%N s -> let '(a, b) := split_eq s in s = a ++ 61%N :: b /\ ~ In 61%N a.
Proof.
  induction s as [|c s IH]; intros I; [destruct I|]. cbn [split_eq]. destruct (N.eqb_spec c 61%N) as [->|D].
  - split; [reflexivity|intros []].
  - destruct I as [I|I]; [congruence|]. specialize (IH I). destruct (split_eq s) as [a b]. destruct IH as [-> N]. split; [reflexivity|].
    intros [K|K]; [congruence|now apply N].
Qed.
Lemma mem_In c s : mem c s = true <-> In c s.
Proof.
  unfold mem. rewrite existsb_exists. split.
  - intros (x & I & E). apply N.eqb_eq in E. now subst.
  - intros I. exists c. split; [exact I|apply N.eqb_refl].
Qed.
Lemma dashdash a : startswith a (txt "--") = true <-> exists r, a = txt "--" ++ r.
Proof. apply startswith_app. Qed.
Lemma spells_spec a n v : spells a n v <-> startswith a (txt "--") = true /\ option_of a = (n, v).
Proof.
  rewrite dashdash. unfold spells, option_of. split.
  - intros (H & [[-> ->]|(t & -> & ->)]).
    + split; [now exists n|]. change (skipn 2 (txt "--" ++ n)) with n. destruct (mem 61%N n) eqn:M; [|reflexivity]. now apply mem_In in M.
    + split; [now exists (n ++ 61%N :: t)|]. change (skipn 2 (txt "--" ++ ?x)) with x.
      assert (mem 61%N (n ++ 61%N :: t) = true) as -> by (apply mem_In, in_elt). now rewrite split_eq_app.
  - intros ((r & ->) & E). change (skipn 2 (txt "--" ++ r)) with r in E. destruct (mem 61%N r) eqn:M.
    + apply mem_In in M. pose proof (split_eq_spec r M) as S. destruct (split_eq r) as [x y]. injection E as <- <-. destruct S as [-> N].
      split; [exact N|]. right. now exists y.
    + injection E as <- <-. split; [|left; auto]. intros I. apply mem_In in I. congruence.
Qed.
Lemma spells_fun a n v n' v' : spells a n v -> spells a n' v' -> n = n' /\ v = v'.
Proof. rewrite !spells_spec. intros [_ A] [_ B]. rewrite A in B. now injection B. Qed.
Lemma positional_spec a : positional a <-> startswith a (txt "--") = false.
Proof.
  unfold positional. split.
  - intros H. destruct (startswith a (txt "--")) eqn:E; [|reflexivity]. exfalso. apply H. destruct (option_of a) as [n v] eqn:O. exists n, v.
    apply spells_spec. auto.
  - intros E (n & v & S). apply spells_spec in S. destruct S. congruence.
Qed.
Lemma read_args argv : forall args kws, exists l, picked positional argv l /\ fst (read_argv argv args kws) = args ++ l.
Proof.
  induction argv as [|a r IH]; intros args kws; cbn [read_argv].
  - exists []. split; [constructor|now rewrite app_nil_r].
  - destruct (startswith a (txt "--")) eqn:E.
    + destruct (option_of a) as [n v]. destruct (IH args (dset kws n v)) as (l & P & R). exists l. split; [|exact R].
      apply pk_no; [|exact P]. rewrite positional_spec. congruence.
    + destruct (IH (args ++ [a]) kws) as (l & P & R). exists (a :: l). split; [|now rewrite R, <- app_assoc].
      apply pk_yes; [now apply positional_spec|exact P].
Qed.
Lemma read_kws argv : forall args kws n v, dget (snd (read_argv argv args kws)) n = Some v <->
  given argv n v \/ absent argv n /\ dget kws n = Some v.
Proof.
  induction argv as [|a r IH]; intros args kws n v; cbn [read_argv].
  - cbn [snd]. split.
    + intros H. right. split; [intros x y []|exact H].
    + intros [(pre & a & post & E & _)|[_ H]]; [destruct pre; discriminate E|exact H].
  - assert (STEP : given (a :: r) n v <-> given r n v \/ absent r n /\ spells a n v).
    { split.
      - intros (pre & b & post & E & S & L). destruct pre as [|x pre]; injection E as -> ->.
        + right. split; [|exact S]. intros x y I. now apply L.
        + left. exists pre, b, post. auto.
      - intros [(pre & b & post & -> & S & L)|[A S]]; [now exists (a :: pre), b, post|]. exists [], a, r. split; [reflexivity|]. split; [exact S|].
        intros b v' I. now apply A. }
    assert (ABS : absent (a :: r) n <-> absent r n /\ forall v, ~ spells a n v).
    { unfold absent. split.
      - intros H. split; [intros x y I; apply H; now right|intros y; apply H; now left].
      - intros [H1 H2] x y [<-|I]; [apply H2|now apply H1]. }
    destruct (startswith a (txt "--")) eqn:E.
    + destruct (option_of a) as [m u] eqn:O. rewrite IH, STEP, ABS, dget_dset.
      assert (SP : spells a m u) by (apply spells_spec; auto). destruct (keqb_spec n m) as [->|D].
      * split.
        -- intros [G|[A X]]; [now left; left|]. injection X as <-. left. right. auto.
        -- intros [[G|[A S]]|[[A N] _]].
           ++ now left.
           ++ right. split; [exact A|]. destruct (spells_fun a m v m u S SP) as [_ ->]. reflexivity.
           ++ exfalso. exact (N u SP).
      * split.
        -- intros [G|[A X]]; [now left; left|]. right. split; [split; [exact A|]|exact X]. intros y S. destruct (spells_fun a n y m u S SP). congruence.
        -- intros [[G|[A S]]|[[A N] X]]; [now left| |now right]. destruct (spells_fun a n v m u S SP). congruence.
    + assert (NS : forall v, ~ spells a n v) by (intros y S; apply spells_spec in S; destruct S; congruence).
      rewrite IH, STEP, ABS. split.
      * intros [G|[A X]]; [now left; left|]. right. repeat split; assumption.
      * intros [[G|[A S]]|[[A N] X]]; [now left|exfalso; exact (NS v S)|now right].
Qed.
Definition kws_of (argv : list text) : dict text kwv := snd (read_argv argv [] []).
Lemma kws_given argv n v : dget (kws_of argv) n = Some v <-> given argv n v.
Proof. unfold kws_of. rewrite read_kws. cbn. split; [intros [H|[_ H]]; [exact H|discriminate]|now left]. Qed.
Lemma kws_absent_gen argv : forall args kws n, dget (snd (read_argv argv args kws)) n = None <-> absent argv n /\ dget kws n = None.
Proof.
  induction argv as [|a r IH]; intros args kws n; cbn [read_argv].
  - cbn [snd]. split; [intros H; split; [intros x y []|exact H]|intros [_ H]; exact H].
  - assert (ABS : absent (a :: r) n <-> absent r n /\ forall v, ~ spells a n v).
    { unfold absent. split.
      - intros H. split; [intros x y I; apply H; now right|intros y; apply H; now left].
      - intros [H1 H2] x y [<-|I]; [apply H2|now apply H1]. }
    destruct (startswith a (txt "--")) eqn:E.
    + destruct (option_of a) as [m u] eqn:O. assert (SP : spells a m u) by (apply spells_spec; auto).
      rewrite IH, ABS, dget_dset. destruct (keqb_spec n m) as [->|D].
      * split; [intros [_ X]; discriminate|intros [[_ X] _]; destruct (X u SP)].
      * split; [intros [A X]|intros [[A _] X]; auto]. split; [split; [exact A|]|exact X].
        intros y S. destruct (spells_fun a n y m u S SP). congruence.
    + rewrite IH, ABS. split; [intros [A X]|intros [[A _] X]; auto]. split; [split; [exact A|]|exact X].
      intros y S; apply spells_spec in S; destruct S; congruence.
Qed.
Lemma kws_absent argv n : dget (kws_of argv) n = None <-> absent argv n.
Proof. unfold kws_of. rewrite kws_absent_gen. cbn. tauto. Qed.
Definition args_of (argv : list text) : list text := fst (read_argv argv [] []).
Lemma args_picked argv : picked positional argv (args_of argv).
Proof. destruct (read_args argv [] []) as (l & P & E). unfold args_of. rewrite E. exact P. Qed.
Lemma picked_fun {A} (P : A -> Prop) l a b : picked P l a -> picked P l b -> a = b.
Proof.
  intros H. revert b. induction H; intros b K; inversion K; subst; try contradiction; [reflexivity|f_equal|]; auto.
Qed.
Lemma truthy_on argv n : truthy (dget (kws_of argv) n) = true <-> switched_on argv n.
Proof.
  unfold switched_on. split.
  - destruct (dget (kws_of argv) n) as [v|] eqn:E; [|discriminate]. intros T. exists v. split; [now apply kws_given|].
    intros ->. discriminate.
  - intros (v & G & N). apply kws_given in G. rewrite G. destruct v as [|[|? ?]]; [reflexivity|now destruct N|reflexivity].
Qed.
Lemma truthy_off argv n : truthy (dget (kws_of argv) n) = false <-> ~ switched_on argv n.
Proof. rewrite <- truthy_on. destruct (truthy _); split; try congruence; intros H; now destruct H. Qed.
Definition main' (argv : list text) : res action :=
  let get n := dget (kws_of argv) (txt n) in
  if truthy (get "help"%string) then Ok AHelp
  else if truthy (get "version"%string) then Ok AVersion
  else
    let* _ := main_log (get "log"%string) in
    Ok (ARun (negb (truthy (get "no-startup"%string)))
          match get "cmd"%string with
          | Some (KvStr t) => Ok (WExpr t)
          | Some KvTrue => Err AttributeError
          | None =>
              match get "pcmd"%string with
              | Some (KvStr t) => if forallb (fun c => (c <? 128)%N) t then let* b := b64decode t in Ok (WPickled b) else Err UnicodeEncodeError
              | Some KvTrue => Err AttributeError
              | None => match args_of argv with [] => Ok (WShell (truthy (get "ptpython"%string))) | _ => Ok (WFiles (args_of argv)) end
              end
          end).
Lemma main_eq argv : main argv = main' argv.
Proof. unfold main, main', kws_of, args_of. destruct (read_argv argv [] []) as [a k]. reflexivity. Qed.

Lemma b64_ascii c : b64ok c = true -> (c <? 128)%N = true.
Proof.
  unfold b64ok, b64val, c_pad. intros H. apply N.ltb_lt.
  repeat match type of H with context [ (?a <=? ?b)%N ] => destruct (N.leb_spec a b); cbn [andb] in H end; try lia.
  all: destruct (N.eqb_spec c 43); [lia|]; destruct (N.eqb_spec c 47); [lia|]; apply N.eqb_eq in H; lia.
Qed.
Lemma main_pcmd b : Forall byte b -> main [txt "--pcmd=" ++ b64encode b] = Ok (ARun true (Ok (WPickled b))).
Proof.
  intros H. assert (G : given [txt "--pcmd=" ++ b64encode b] (txt "pcmd") (KvStr (b64encode b))).
  { exists [], (txt "--pcmd=" ++ b64encode b), []. split; [reflexivity|split; [|intros ? ? []]]. split; [vm_compute; intuition discriminate|right].
    exists (b64encode b). split; reflexivity. }
  assert (A : forall n, n <> txt "pcmd" -> dget (kws_of [txt "--pcmd=" ++ b64encode b]) n = None).
  { intros n N. apply kws_absent. intros a v [<-|[]] S. destruct G as (p & x & q & E & S' & _). destruct p as [|? p]; injection E as E; [|destruct p; discriminate].
    subst x. destruct (spells_fun _ _ _ _ _ S S'). contradiction. }
  rewrite main_eq. unfold main'. apply kws_given in G. rewrite !A by (vm_compute; discriminate). cbv beta zeta. rewrite G. cbn [truthy main_log bind_res negb].
  assert (forallb (fun c => (c <? 128)%N) (b64encode b) = true) as ->.
  { apply forallb_forall. intros c I. apply b64_ascii. pose proof (b64encode_ok b) as K. rewrite forallb_forall in K. now apply K. }
  rewrite b64_roundtrip by exact H. reflexivity.
Qed.

(** * The line handed to the shell *)
Lemma sh_sq s : ~ In 39%N s -> forall r w, sh (s ++ 39%N :: r) SmSq w = sh r SmWord (w ++ map (fun c => (c, true)) s).
Proof.
  induction s as [|c s IH]; intros H r w.
  - cbn [List.app sh map N.eqb Pos.eqb]. now rewrite app_nil_r.
  - cbn [List.app sh map]. destruct (N.eqb_spec c 39) as [->|D]; [destruct H; now left|]. rewrite IH by (intros K; apply H; now right).
    now rewrite <- app_assoc.
Qed.
Lemma sshcmd_read b : remote_argv (sshcmd b) [txt "pieshell"; txt "--pcmd=" ++ b64encode b].
Proof.
  set (w1 := map (fun c => (c, false)) (txt "pieshell")). set (w2 := map (fun c => (c, false)) (txt "--pcmd=") ++ map (fun c => (c, true)) (b64encode b)).
  assert (E : [txt "pieshell"; txt "--pcmd=" ++ b64encode b] = map (map fst) [w1; w2]).
  { cbn [map]. f_equal. f_equal. subst w2. rewrite map_app, (map_map _ fst (b64encode b)). cbn [fst]. rewrite map_id. reflexivity. }
  rewrite E. constructor.
  - unfold sh_read, sshcmd. change (txt "'") with [39%N].
    change (sh (txt "pieshell --pcmd='" ++ b64encode b ++ [39%N]) SmBlank []) with
      (option_map (cons (SW w1)) (sh (b64encode b ++ [39%N]) SmSq (map (fun c => (c, false)) (txt "--pcmd=")))).
    rewrite sh_sq by (apply b64_not; [apply b64encode_ok|reflexivity]). reflexivity.
  - constructor; [|constructor; [|constructor]].
    + repeat constructor; right; reflexivity.
    + apply Forall_app. split; [repeat constructor; right; reflexivity|]. apply Forall_map, Forall_forall. intros c _. now left.
Qed.
Lemma sshcmd_char c b : In c (sshcmd b) -> b64ok c = true \/ In c (txt "pieshell --pcmd='").
Proof.
  unfold sshcmd. rewrite !in_app_iff. intros [I|[I|I]]; [now right| |].
  - left. pose proof (b64encode_ok b) as K. rewrite forallb_forall in K. now apply K.
  - right. destruct I as [<-|[]]. vm_compute. tauto.
Qed.
Lemma sshcmd_plain b : no_percent (sshcmd b) /\ no_tilde (sshcmd b) /\ no_glob (sshcmd b).
Proof.
  assert (X : forall c, b64ok c = false -> ~ In c (txt "pieshell --pcmd='") -> ~ In c (sshcmd b)).
  { intros c A B I. apply sshcmd_char in I as [I|I]; [congruence|contradiction]. }
  split; [|split; [discriminate|split; [|split]]]; (apply X; [reflexivity|vm_compute; intuition discriminate]).
Qed.
Lemma remote_words_sent w cwd sc middle ws b : arg_list w cwd sc middle = Ok ws ->
  arg_list w cwd sc (remote_args middle b) = Ok (WStr (txt "ssh") :: ws ++ [WStr (sshcmd b)]).
Proof.
  intros H. destruct (sshcmd_plain b) as (P & T & G). unfold remote_args. cbn [arg_list arg_words expand_one].
  rewrite (expand_value w cwd sc (txt "ssh") (txt "ssh")) by (try (apply percent_plain); repeat split; vm_compute; intuition discriminate).
  cbn [bind_res map]. assert (X : arg_list w cwd sc (middle ++ [AStr (sshcmd b)]) = Ok (ws ++ [WStr (sshcmd b)])).
  { revert ws H. induction middle as [|a m IH]; intros ws H.
    - injection H as <-. cbn [List.app arg_list arg_words expand_one]. rewrite (expand_value w cwd sc _ (sshcmd b)) by (try apply percent_plain; assumption). reflexivity.
    - cbn [List.app arg_list] in *. destruct (arg_words w cwd sc a) as [x|e]; [|discriminate]. cbn [bind_res] in *.
      destruct (arg_list w cwd sc m) as [y|e]; [|discriminate]. cbn [bind_res] in *. injection H as <-. rewrite (IH y eq_refl). cbn [bind_res]. now rewrite app_assoc. }
  rewrite X. reflexivity.
Qed.
Lemma main_actions argv files : ~ switched_on argv (txt "help") -> ~ switched_on argv (txt "version") -> absent argv (txt "log") ->
  picked positional argv files ->
  exists startup r, main argv = Ok (ARun startup r) /\ (startup = false <-> switched_on argv (txt "no-startup")) /\
    (forall expr, given argv (txt "cmd") (KvStr expr) -> r = Ok (WExpr expr)) /\
    (forall b, absent argv (txt "cmd") -> Forall byte b -> given argv (txt "pcmd") (KvStr (b64encode b)) -> r = Ok (WPickled b)) /\
    (absent argv (txt "cmd") -> absent argv (txt "pcmd") -> files <> [] -> r = Ok (WFiles files)) /\
    (absent argv (txt "cmd") -> absent argv (txt "pcmd") -> files = [] -> exists pt, r = Ok (WShell pt) /\ (pt = true <-> switched_on argv (txt "ptpython"))).
Proof.
  intros H V L P. apply truthy_off in H, V. apply kws_absent in L. rewrite main_eq. unfold main'. rewrite H, V, L. cbn [main_log bind_res].
  rewrite <- (picked_fun _ _ _ _ P (args_picked argv)). clear P.
  eexists _, _. split; [reflexivity|]. split; [rewrite negb_false_iff; apply truthy_on|].
  split; [|split; [|split]].
  - intros e G. apply kws_given in G. now rewrite G.
  - intros b A B G. apply kws_absent in A. apply kws_given in G. rewrite A, G.
    assert (forallb (fun c => (c <? 128)%N) (b64encode b) = true) as ->.
    { apply forallb_forall. intros c I. apply b64_ascii. pose proof (b64encode_ok b) as K. rewrite forallb_forall in K. now apply K. }
    rewrite b64_roundtrip by exact B. reflexivity.
  - intros A B N. apply kws_absent in A, B. rewrite A, B. destruct files; [now destruct N|reflexivity].
  - intros A B ->. apply kws_absent in A, B. rewrite A, B. eexists. split; [reflexivity|apply truthy_on].
Qed.
