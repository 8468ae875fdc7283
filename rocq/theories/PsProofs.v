From Verif Require Import Py PathModel PathProofs EnvModel ExpandModel ExpandSpec ExpandProofs CommandModel CommandSpec CommandProofs ReprModel ReprSpec ReprProofs PsModel PsSpec.

(** * Scanning *)
Lemma namechar_false c : is_namechar c = false -> is_letter c = false /\ in_range 48 57 c = false.
Proof. unfold is_namechar. intros H. now apply Bool.orb_false_iff in H. Qed.
Lemma tokens_namechars n : forall acc, Forall (fun c => is_namechar c = true) n -> forall r, ends r ->
  tokens_from (InName acc) (n ++ r) = match tokens_from Between r with Some l => Some (KName (acc ++ n) :: l) | None => None end.
Proof.
  induction n as [|c n IH]; intros acc H r E.
  - rewrite app_nil_r. cbn [app]. destruct r as [|d r]; [reflexivity|]. cbn [ends] in E. cbn [tokens_from next_char]. rewrite E.
    destruct (first_char d) as [[l s]|]; [|reflexivity]. destruct (tokens_from s r); reflexivity.
  - inversion H as [|x y Hc Hn]; subst. cbn [app tokens_from next_char]. rewrite Hc.
    rewrite IH by assumption. rewrite <- app_assoc. cbn [app]. destruct (tokens_from Between r); reflexivity.
Qed.
Lemma scansE_pyname n : pyname n -> scansE n [KName n].
Proof.
  intros [_ H] r E. destruct n as [|c n]; [contradiction|]. destruct H as [A B]. cbn [app tokens_from next_char].
  rewrite first_letter by assumption. rewrite tokens_namechars by assumption. cbn [app].
  destruct (tokens_from Between r); reflexivity.
Qed.
Lemma digit_range c : digit c -> in_range 48 57 c = true.
Proof. unfold digit, in_range. intros H. apply andb_true_intro. split; apply N.leb_le; lia. Qed.
Lemma digit_not_letter c : digit c -> is_letter c = false.
Proof.
  unfold digit, is_letter, in_range. intros H. destruct (N.eqb_spec c 95); [lia|].
  destruct (N.leb_spec 65 c); [lia|]. destruct (N.leb_spec 97 c); [lia|]. reflexivity.
Qed.
Lemma first_digit c : digit c -> first_char c = Some ([], InNum [c]).
Proof.
  intros H. unfold first_char. rewrite (digit_not_letter c H), (digit_range c H). destruct (N.eqb_spec c 32) as [->|]; [unfold digit in H; lia|reflexivity].
Qed.
Lemma tokens_digits n : forall acc, Forall digit n -> acc <> [48%N] -> acc <> [] -> forall r, ends r ->
  tokens_from (InNum acc) (n ++ r) = match tokens_from Between r with Some l => Some (KNum (acc ++ n) :: l) | None => None end.
Proof.
  induction n as [|c n IH]; intros acc H Z Z' r E.
  - rewrite app_nil_r. cbn [app]. destruct r as [|d r]; [reflexivity|]. cbn [ends] in E. apply namechar_false in E. destruct E as [E1 E2].
    cbn [tokens_from next_char]. rewrite E1, E2.
    destruct (first_char d) as [[l s]|]; [|reflexivity]. destruct (tokens_from s r); reflexivity.
  - inversion H as [|x y Hc Hn]; subst. cbn [app tokens_from next_char]. rewrite (digit_range c Hc).
    assert (Q : match acc with [48%N] => true | _ => false end = false).
    { destruct acc as [|a [|b acc]]; [congruence| |destruct a as [|p]; [reflexivity|]; do 6 (destruct p as [p|p|]; try reflexivity)].
      destruct (N.eq_dec a 48) as [->|K]; [congruence|]. destruct a as [|p]; [reflexivity|]. do 6 (destruct p as [p|p|]; try reflexivity). congruence. }
    rewrite Q. rewrite IH; [|assumption| | |assumption].
    + rewrite <- app_assoc. cbn [app]. destruct (tokens_from Between r); reflexivity.
    + destruct acc as [|a [|b acc]]; [congruence|discriminate|discriminate].
    + destruct acc; discriminate.
Qed.
Lemma scansE_int d : integer d -> scansE d [KNum d].
Proof.
  intros [[Z H] C] r E. destruct d as [|c d]; [congruence|]. inversion H as [|x y Hc Hd]; subst. cbn [app tokens_from next_char].
  rewrite first_digit by assumption. cbn [hd] in C. destruct (N.eq_dec c 48) as [->|K].
  - assert (X : d = []) by (specialize (C eq_refl); now injection C). subst d. cbn [app]. destruct r as [|e r]; [reflexivity|].
    cbn [ends] in E. apply namechar_false in E. destruct E as [E1 E2]. cbn [tokens_from next_char]. rewrite E1, E2.
    destruct (first_char e) as [[l s]|]; [|reflexivity]. destruct (tokens_from s r); reflexivity.
  - rewrite tokens_digits; [|assumption|congruence|discriminate|assumption]. cbn [app]. destruct (tokens_from Between r); reflexivity.
Qed.
Lemma scansE_pynames p : p <> [] -> Forall pyname p -> scansE (join_with (txt ".") p) (name_toks p).
Proof.
  intros Z H. induction H as [|n p Hn Hp IH]; [congruence|]. destruct p as [|m p].
  - now apply scansE_pyname.
  - change (join_with (txt ".") (n :: m :: p)) with (n ++ 46%N :: join_with (txt ".") (m :: p)).
    change (name_toks (n :: m :: p)) with ([KName n] ++ ([KDot] ++ name_toks (m :: p))).
    apply scansE_app; [now apply scansE_pyname|reflexivity|]. change (46%N :: ?x) with ([46%N] ++ x).
    apply scansE_sep; [now apply scans_one|]. apply IH. discriminate.
Qed.
Fixpoint item_toks (l : list (list token)) : list token :=
  match l with [] => [] | [x] => x | x :: r => x ++ KComma :: item_toks r end.
Lemma scansE_items items tl : items <> [] -> Forall2 scansE items tl -> scansE (join_with (txt ", ") items) (item_toks tl).
Proof.
  intros Z H. induction H as [|x k items tl Hx H IH]; [congruence|]. destruct H as [|y k' items tl Hy H].
  - exact Hx.
  - change (join_with (txt ", ") (x :: y :: items)) with (x ++ 44%N :: (32%N :: join_with (txt ", ") (y :: items))).
    change (item_toks (k :: k' :: tl)) with (k ++ ([KComma] ++ ([] ++ item_toks (k' :: tl)))).
    apply scansE_app; [exact Hx|reflexivity|]. change (44%N :: ?x) with ([44%N] ++ x).
    apply scansE_sep; [now apply scans_one|]. change (32%N :: ?x) with ([32%N] ++ x).
    apply scansE_sep; [now apply scans_one|]. apply IH. discriminate.
Qed.
(** the whole printed form *)
Lemma scan_call p items tl : p <> [] -> Forall pyname p -> items <> [] -> Forall2 scansE items tl ->
  tokens (join_with (txt ".") p ++ txt "(" ++ join_with (txt ", ") items ++ txt ")") = Some (name_toks p ++ KOpen :: item_toks tl ++ [KClose]).
Proof.
  intros A B C D. unfold tokens. change (txt "(" ++ ?x) with (40%N :: x).
  rewrite (scansE_pynames p A B) by reflexivity. cbn [tokens_from next_char]. change (first_char 40%N) with (Some ([KOpen], Between)).
  cbn [app]. rewrite (scansE_items items tl C D) by reflexivity. reflexivity.
Qed.

(** * Reading *)
Lemma take_names f ns n p rest : Forall pyname (n :: p) ->
  take_all (QDot f ns) (name_toks (n :: p) ++ rest) = take_all (QHave f (ns ++ n :: p)) rest.
Proof.
  revert ns n. induction p as [|m p IH]; intros ns n H.
  - inversion H as [|? ? [K _] _]; subst. cbn [name_toks app take_all take]. now rewrite (keyword_false n K).
  - inversion H as [|? ? [K _] H']; subst. change (name_toks (n :: m :: p)) with (KName n :: KDot :: name_toks (m :: p)).
    cbn [app take_all take]. rewrite (keyword_false n K). cbn [take_all take]. rewrite IH by exact H'. now rewrite <- app_assoc.
Qed.
Lemma take_first f p rest : Forall pyname (f :: p) -> take_all QWant (name_toks (f :: p) ++ rest) = take_all (QHave f p) rest.
Proof.
  intros H. inversion H as [|? ? [K _] H']; subst. destruct p as [|m p].
  - cbn [name_toks app take_all take]. now rewrite (keyword_false f K).
  - change (name_toks (f :: m :: p)) with (KName f :: KDot :: name_toks (m :: p)). cbn [app take_all take]. rewrite (keyword_false f K). cbn [take_all take].
    now rewrite take_names by exact H'.
Qed.
(** [x] reads as one argument *)
Definition reads (x : list token) (p : list pyval) (kw : list (text * pyval)) (p' : list pyval) (kw' : list (text * pyval)) : Prop :=
  forall f ns k rest, k = KComma \/ k = KClose -> take_all (QArg f ns p kw) (x ++ k :: rest) = take_all (QDone f ns p' kw') (k :: rest).
Inductive reads_all : list (list token) -> list pyval -> list (text * pyval) -> list pyval -> list (text * pyval) -> Prop :=
| ra_nil p kw : reads_all [] p kw p kw
| ra_cons x l p kw p1 kw1 p2 kw2 : reads x p kw p1 kw1 -> reads_all l p1 kw1 p2 kw2 -> reads_all (x :: l) p kw p2 kw2.
Lemma take_items l : l <> [] -> forall p kw p' kw' f ns, reads_all l p kw p' kw' ->
  take_all (QArg f ns p kw) (item_toks l ++ [KClose]) = Some (mkL f ns (Some (p', kw'))).
Proof.
  intros Z p kw p' kw' f ns H. induction H as [|x l p kw p1 kw1 p2 kw2 A B IH]; [congruence|]. destruct l as [|y l].
  - inversion B; subst. cbn [item_toks]. rewrite A by now right. reflexivity.
  - change (item_toks (x :: y :: l)) with (x ++ KComma :: item_toks (y :: l)). rewrite <- app_assoc. cbn [app].
    rewrite A by now left. cbn [take_all take]. apply IH. discriminate.
Qed.
Lemma read_call f ns items tl p kw : Forall pyname (f :: ns) -> items <> [] -> Forall2 scansE items tl -> reads_all tl [] [] p kw ->
  read_line (join_with (txt ".") (f :: ns) ++ txt "(" ++ join_with (txt ", ") items ++ txt ")") = Some (mkL f ns (Some (p, kw))).
Proof.
  intros A B C D. unfold read_line. rewrite (scan_call (f :: ns) items tl); [|discriminate|exact A|exact B|exact C].
  rewrite take_first by exact A. cbn [take_all take]. apply take_items; [|exact D].
  intros ->. inversion C; subst. congruence.
Qed.
Lemma read_names f ns : Forall pyname (f :: ns) -> read_line (join_with (txt ".") (f :: ns)) = Some (mkL f ns None).
Proof.
  intros A. unfold read_line, tokens. pose proof (scansE_pynames (f :: ns) ltac:(discriminate) A [] I) as H.
  rewrite app_nil_r in H. rewrite H. cbn [tokens_from]. rewrite take_first by exact A. reflexivity.
Qed.
Lemma reads_str t p : reads [KStr t] p [] (p ++ [VStr t]) [].
Proof. intros f ns k rest H. reflexivity. Qed.
Lemma reads_option n p : pyname n -> reads [KMinus; KName n] p [] (p ++ [VNegName n]) [].
Proof. intros [K _] f ns k rest H. cbn [app take_all take]. rewrite (keyword_false n K). reflexivity. Qed.
Lemma reads_negint d p : reads [KMinus; KNum d] p [] (p ++ [VNegInt d]) [].
Proof. intros f ns k rest H. reflexivity. Qed.
Lemma kw_fresh (kw : list (text * pyval)) k : ~ In k (map fst kw) ->
  existsb (fun e => if list_eq_dec N.eq_dec (fst e) k then true else false) kw = false.
Proof.
  intros H. induction kw as [|e kw IH]; [reflexivity|]. cbn [existsb]. destruct (list_eq_dec N.eq_dec (fst e) k) as [E|E].
  - exfalso. apply H. now left.
  - cbn [orb]. apply IH. intros K. apply H. now right.
Qed.
Lemma reads_int k d p kw : pyname k -> ~ In k (map fst kw) -> reads [KName k; KEq; KNum d] p kw p (kw ++ [(k, VInt d)]).
Proof.
  intros [K _] Q f ns x rest H. cbn [app take_all take]. rewrite (keyword_false k K). cbn [take_all take with_value].
  rewrite (kw_fresh kw k Q). reflexivity.
Qed.
Lemma name_value_name n : pyname n -> name_value n = Some (VName n).
Proof.
  intros [K _]. unfold name_value.
  destruct (list_eq_dec N.eq_dec n (txt "True")) as [->|_]; [exfalso; apply K; vm_compute; tauto|].
  destruct (list_eq_dec N.eq_dec n (txt "False")) as [->|_]; [exfalso; apply K; vm_compute; tauto|].
  now rewrite (keyword_false n K).
Qed.
Lemma reads_kwname k n p kw v : pyname k -> ~ In k (map fst kw) -> name_value n = Some v -> reads [KName k; KEq; KName n] p kw p (kw ++ [(k, v)]).
Proof.
  intros [K _] Q V f ns x rest H. cbn [app take_all take]. rewrite (keyword_false k K). cbn [take_all take]. rewrite V. cbn [with_value].
  rewrite (kw_fresh kw k Q). reflexivity.
Qed.
Lemma reads_name n p : pyname n -> reads [KName n] p [] (p ++ [VName n]) [].
Proof.
  intros H f ns x rest [-> | ->]; cbn [app take_all take]; rewrite (name_value_name n H); reflexivity.
Qed.

(** * Printing *)
Lemma slug_chars t : is_slug t -> Forall (fun c => lower_or_digit c \/ c = 95%N) t.
Proof.
  intros (ws & -> & H). induction H as [|x ws [_ Hx] Hw IH]; [constructor|].
  assert (A : Forall (fun c => lower_or_digit c \/ c = 95%N) x) by (eapply Forall_impl; [|exact Hx]; cbn; tauto).
  destruct ws as [|y ws]; [exact A|]. change (underscored (x :: y :: ws)) with (x ++ 95%N :: underscored (y :: ws)).
  apply Forall_app. split; [exact A|]. constructor; [now right|exact IH].
Qed.
Lemma not_slug t c : In c t -> ~ (lower_or_digit c \/ c = 95%N) -> ~ is_slug t.
Proof. intros I N S. apply slug_chars in S. rewrite Forall_forall in S. exact (N (S c I)). Qed.
Lemma dash_not_slug r : ~ is_slug (txt "-" ++ r).
Proof. apply (not_slug _ 45%N); [now left|]. unfold lower_or_digit. lia. Qed.
Lemma starts_app p r : starts p (p ++ r) = true.
Proof. induction p as [|a p IH]; [reflexivity|]. cbn [app starts]. now rewrite N.eqb_refl. Qed.
Lemma starts_iff p : forall t, starts p t = true <-> exists r, t = p ++ r.
Proof.
  induction p as [|a p IH]; intros t; cbn [starts app].
  - split; [intros _; now exists t|reflexivity].
  - destruct t as [|b t].
    + split; [discriminate|]. intros (r & K). discriminate K.
    + rewrite Bool.andb_true_iff, N.eqb_eq, IH. split.
      * intros [-> (r & ->)]. now exists r.
      * intros (r & K). injection K as -> ->. split; [reflexivity|now exists r].
Qed.
Lemma starts_false p t : ~ (exists r, t = p ++ r) -> starts p t = false.
Proof. intros H. destruct (starts p t) eqn:E; [|reflexivity]. apply starts_iff in E. contradiction. Qed.
Lemma split_eq_app k v : ~ In 61%N k -> split_eq (k ++ txt "=" ++ v) = Some (k, v).
Proof.
  induction k as [|c k IH]; intros H; [reflexivity|]. cbn [app split_eq]. destruct (N.eqb_spec c 61) as [->|K].
  - exfalso. apply H. now left.
  - rewrite IH; [reflexivity|]. intros I. apply H. now right.
Qed.
Lemma split_eq_none t : ~ (exists k v, t = k ++ txt "=" ++ v) -> split_eq t = None.
Proof.
  induction t as [|c t IH]; intros H; [reflexivity|]. cbn [split_eq]. destruct (N.eqb_spec c 61) as [->|K].
  - exfalso. apply H. now exists [], t.
  - rewrite IH; [reflexivity|]. intros (k & v & ->). apply H. now exists (c :: k), v.
Qed.
Lemma namechar_not_eq c : is_namechar c = true -> c <> 61%N /\ c <> 45%N /\ c <> 44%N /\ c <> 47%N.
Proof. intros H. repeat split; intros ->; discriminate H. Qed.
Lemma pyname_chars n : pyname n -> Forall (fun c => is_namechar c = true) n.
Proof.
  intros [_ H]. destruct n as [|c n]; [constructor|]. destruct H as [A B]. constructor; [|exact B]. unfold is_namechar. now rewrite A.
Qed.
Lemma pyname_no n c : pyname n -> is_namechar c = false -> ~ In c n.
Proof. intros H E I. apply pyname_chars in H. rewrite Forall_forall in H. rewrite (H c I) in E. discriminate. Qed.
Lemma dict_set_fresh k v d : ~ In k (map fst d) -> dict_set k v d = d ++ [(k, v)].
Proof.
  induction d as [|[k' v'] d IH]; intros H; [reflexivity|]. cbn [dict_set app map fst In] in *. rewrite text_eqb_neq by (intros ->; tauto).
  rewrite IH by tauto. reflexivity.
Qed.

Section Print.
  Context (printable : N -> bool) (slug : text -> text) (SL : slugifies slug).
  Notation item := (ps_item printable slug).
  Lemma slugged t : is_slug t -> text_eqb (slug t) t = true.
  Proof. intros H. apply SL in H. rewrite H. apply text_eqb_refl. Qed.
  Lemma unslugged t : ~ is_slug t -> text_eqb (slug t) t = false.
  Proof. intros H. apply text_eqb_neq. intros K. apply H. now apply SL. Qed.
  Lemma print_names ns : Forall is_slug ns -> forall l, fold_left item ns (mkPs false l [] []) = mkPs false (l ++ ns) [] [].
  Proof.
    intros H. induction H as [|n ns Hn H IH]; intros l; cbn [fold_left]; [now rewrite app_nil_r|].
    unfold ps_item at 2. cbn [ps_param ps_names ps_args ps_kw orb]. rewrite (slugged n Hn). cbn [negb]. rewrite IH. now rewrite <- app_assoc.
  Qed.
  (** how an argument that is no long option is printed *)
  Definition shown (t : text) : text := if starts (txt "-") t && negb (starts (txt "--") t) then t else repr_str printable t.
  Lemma item_arg pr l a kw t : pr = true \/ ~ is_slug t -> ~ long_option t -> item (mkPs pr l a kw) t = mkPs true l (a ++ [shown t]) kw.
  Proof.
    intros P L. unfold ps_item. cbn [ps_param ps_names ps_args ps_kw].
    assert (Q : pr || negb (text_eqb (slug t) t) = true) by (destruct P as [-> | P]; [reflexivity|rewrite (unslugged t P); apply Bool.orb_true_r]).
    rewrite Q. cbn [negb].
    assert (R : (if starts (txt "--") t then split_eq (skipn 2 t) else None) = None).
    { destruct (starts (txt "--") t) eqn:E; [|reflexivity]. apply starts_iff in E. destruct E as [r ->].
      change (skipn 2 (txt "--" ++ r)) with r. apply split_eq_none. intros (k & v & ->). apply L. now exists k, v. }
    rewrite R. unfold shown. destruct (starts (txt "-") t && negb (starts (txt "--") t)); reflexivity.
  Qed.
  Lemma item_option pr l a kw k v : ~ In 61%N k -> item (mkPs pr l a kw) (option_word (k, v)) = mkPs true l a (dict_set k v kw).
  Proof.
    intros K. unfold ps_item, option_word. cbn [ps_param ps_names ps_args ps_kw fst snd].
    assert (Q : pr || negb (text_eqb (slug (txt "--" ++ k ++ txt "=" ++ v)) (txt "--" ++ k ++ txt "=" ++ v)) = true).
    { rewrite unslugged; [apply Bool.orb_true_r|]. exact (dash_not_slug (txt "-" ++ k ++ txt "=" ++ v)). }
    rewrite Q. cbn [negb]. rewrite starts_app. change (skipn 2 (txt "--" ++ k ++ txt "=" ++ v)) with (k ++ txt "=" ++ v).
    rewrite split_eq_app by exact K. reflexivity.
  Qed.
  Lemma print_mixed kvs : Forall (fun kv => ~ In 61%N (fst kv)) kvs -> forall ts ws, interleaved ts (map option_word kvs) ws -> Forall (fun t => ~ long_option t) ts ->
    forall pr l a kw, pr = true \/ match ws with [] => True | t :: _ => ~ is_slug t end -> NoDup (map fst (kw ++ kvs)) ->
    exists pr', fold_left item ws (mkPs pr l a kw) = mkPs pr' l (a ++ map shown ts) (kw ++ kvs).
  Proof.
    intros H ts ws. revert kvs H ts. induction ws as [|x ws IH]; intros kvs H ts M B pr l a kw P D.
    - inversion M; subst. destruct kvs; [|discriminate]. exists pr. cbn [fold_left map]. now rewrite !app_nil_r.
    - inversion M as [|? ts' ? ? M' | ? ? bs ? M']; subst.
      + inversion B as [|? ? B1 B2]; subst. cbn [fold_left]. rewrite item_arg by assumption.
        destruct (IH kvs H ts' M' B2 true l (a ++ [shown x]) kw) as (pr' & E); [now left|exact D|]. exists pr'. rewrite E. cbn [map]. now rewrite <- app_assoc.
      + destruct kvs as [|[k v] kvs]; [discriminate|]. cbn [map] in *. inversion H as [|? ? Hk1 Hk2]; subst.
        match goal with X : cons _ _ = cons _ _ |- _ => injection X as -> -> end. cbn [fold_left]. rewrite item_option by exact Hk1. rewrite dict_set_fresh.
        * destruct (IH kvs Hk2 ts M' B true l a (kw ++ [(k, v)])) as (pr' & E); [now left|rewrite <- app_assoc; exact D|]. exists pr'. rewrite E. now rewrite <- app_assoc.
        * rewrite map_app in D. cbn [map fst] in D. apply NoDup_remove_2 in D. intros I. apply D. apply in_or_app. now left.
  Qed.
  Lemma printed ns ts kvs ws : Forall is_slug ns -> Forall (fun t => ~ long_option t) ts -> match ws with [] => True | t :: _ => ~ is_slug t end ->
    Forall (fun kv => ~ In 61%N (fst kv)) kvs -> NoDup (map fst kvs) -> interleaved ts (map option_word kvs) ws ->
    cmdline2pieshell printable slug (ns ++ ws) =
    match map shown ts ++ map (fun kv => fst kv ++ txt "=" ++ snd kv) kvs with
    | [] => join_with (txt ".") (match ns with [] => [txt "_"] | l => l end)
    | items => join_with (txt ".") (match ns with [] => [txt "_"] | l => l end) ++ txt "(" ++ join_with (txt ", ") items ++ txt ")"
    end.
  Proof.
    intros A B C D E M. unfold cmdline2pieshell. rewrite !fold_left_app. rewrite (print_names ns A []). cbn [app].
    destruct (print_mixed kvs D ts ws M B false ns [] []) as (pr & ->); [now right|exact E|]. cbn [ps_names ps_args ps_kw app].
    destruct ns; destruct (map shown ts ++ map (fun kv => fst kv ++ txt "=" ++ snd kv) kvs); reflexivity.
  Qed.
End Print.

(** * Reading back *)
Definition tok_of (t : text) : list token := if starts (txt "-") t && negb (starts (txt "--") t) then [KMinus; KName (skipn 1 t)] else [KStr t].
Definition val_of (t : text) : pyval := if starts (txt "-") t && negb (starts (txt "--") t) then VNegName (skipn 1 t) else VStr t.
Lemma arg_word_cases t : arg_word t -> (exists n, t = txt "-" ++ n /\ names_command n /\ starts (txt "-") t && negb (starts (txt "--") t) = true)
  \/ (Forall char t /\ ~ long_option t /\ starts (txt "-") t && negb (starts (txt "--") t) = false).
Proof.
  intros [n H|u C H|u C (r & ->) L].
  - left. exists n. split; [reflexivity|]. split; [exact H|]. rewrite starts_app. cbn [andb]. apply Bool.negb_true_iff. apply starts_false.
    intros (r & K). destruct H as [H _]. apply (pyname_no n 45%N H eq_refl). change (txt "--" ++ r) with (txt "-" ++ (txt "-" ++ r)) in K.
    apply app_inv_head in K. subst n. now left.
  - right. split; [exact C|]. split.
    + intros (k & v & ->). apply H. now exists (txt "-" ++ k ++ txt "=" ++ v).
    + now rewrite (starts_false _ u H).
  - right. split; [exact C|]. split; [exact L|]. rewrite starts_app. cbn [negb]. apply Bool.andb_false_r.
Qed.
Lemma arg_word_short t : arg_word t -> ~ long_option t.
Proof.
  intros H. destruct (arg_word_cases t H) as [(n & -> & N & S)|(_ & L & _)]; [|exact L].
  intros (k & v & K). apply Bool.andb_true_iff in S. destruct S as [_ S]. apply Bool.negb_true_iff in S. rewrite K in S. now rewrite starts_app in S.
Qed.
Section Back.
  Context (printable : N -> bool).
  Lemma shown_scans t : arg_word t -> scansE (shown printable t) (tok_of t).
  Proof.
    intros H. unfold shown, tok_of. destruct (arg_word_cases t H) as [(n & -> & [N _] & ->)|(C & _ & ->)].
    - change (skipn 1 (txt "-" ++ n)) with n. change [KMinus; KName n] with ([KMinus] ++ [KName n]). apply scansE_sep; [now apply scans_one|now apply scansE_pyname].
    - apply scans_scansE. now apply scans_str.
  Qed.
  Lemma kv_scans k d : pyname k -> integer d -> scansE (k ++ txt "=" ++ d) [KName k; KEq; KNum d].
  Proof.
    intros A B. change [KName k; KEq; KNum d] with ([KName k] ++ ([KEq] ++ [KNum d])). change (txt "=" ++ d) with (61%N :: d).
    apply scansE_app; [now apply scansE_pyname|reflexivity|]. change (61%N :: d) with ([61%N] ++ d). apply scansE_sep; [now apply scans_one|now apply scansE_int].
  Qed.
  Lemma kvname_scans k v : pyname k -> pyname v \/ In v (map txt ["True"; "False"]%string) -> scansE (k ++ txt "=" ++ v) [KName k; KEq; KName v].
  Proof.
    intros A B. change [KName k; KEq; KName v] with ([KName k] ++ ([KEq] ++ [KName v])). change (txt "=" ++ v) with (61%N :: v).
    apply scansE_app; [now apply scansE_pyname|reflexivity|]. change (61%N :: v) with ([61%N] ++ v). apply scansE_sep; [now apply scans_one|].
    destruct B as [B|B]; [now apply scansE_pyname|]. cbn [map In] in B.
    destruct B as [<-|[<-|[]]]; (apply scansE_name; [discriminate|]; vm_compute; repeat constructor).
  Qed.
  Lemma reads_words ts : Forall arg_word ts -> forall p l p' kw', reads_all l (p ++ map val_of ts) [] p' kw' -> reads_all (map tok_of ts ++ l) p [] p' kw'.
  Proof.
    intros H. induction H as [|t ts Ht H IH]; intros p l p' kw' R; cbn [map app] in *; [now rewrite app_nil_r in R|].
    apply (ra_cons _ _ _ _ (p ++ [val_of t]) []).
    - unfold tok_of, val_of. destruct (arg_word_cases t Ht) as [(n & -> & [N _] & ->)|(C & _ & ->)]; [now apply reads_option|apply reads_str].
    - apply IH. rewrite <- app_assoc. exact R.
  Qed.
  Lemma reads_options kvs : Forall (fun kv => pyname (fst kv) /\ integer (snd kv)) kvs -> forall p kw, NoDup (map fst kw ++ map fst kvs) ->
    reads_all (map (fun kv => [KName (fst kv); KEq; KNum (snd kv)]) kvs) p kw p (kw ++ map (fun kv => (fst kv, VInt (snd kv))) kvs).
  Proof.
    intros H. induction H as [|[k d] kvs [Hk Hd] H IH]; intros p kw D; cbn [map fst snd] in *; [rewrite app_nil_r; constructor|].
    apply (ra_cons _ _ _ _ p (kw ++ [(k, VInt d)])).
    - apply reads_int; [exact Hk|]. apply NoDup_remove_2 in D. intros I. apply D. apply in_or_app. now left.
    - change ((k, VInt d) :: map ?f kvs) with ([(k, VInt d)] ++ map f kvs). rewrite app_assoc. apply IH. rewrite map_app. cbn [map fst]. now rewrite <- app_assoc.
  Qed.
End Back.

(** * What is denoted *)
Section Denoted.
  Context (fd : text -> nat) (w : world) (cwd : text) (sc : scope).
  Lemma env_command n : names_command n -> exists c, as_cmd (env_attr n) = Ok c /\ c_arg c = [AStr n].
  Proof.
    intros (_ & A & B). rewrite env_attr_plain by assumption. unfold construct, dispatch. cbn [bind_res as_cmd]. eexists. split; reflexivity.
  Qed.
  Lemma value_word t : arg_word t -> value fd (val_of t) = Ok (AStr t).
  Proof.
    intros H. unfold val_of. destruct (arg_word_cases t H) as [(n & -> & N & ->)|(_ & _ & ->)]; [|reflexivity].
    cbn [value]. change (skipn 1 (txt "-" ++ n)) with n. destruct (env_command n N) as (c & E & A). rewrite E. cbn [bind_res]. unfold neg. now rewrite A.
  Qed.
  Lemma values_words ts : Forall arg_word ts -> values fd (map val_of ts) = Ok (map AStr ts).
  Proof. intros H. induction H as [|t ts Ht H IH]; [reflexivity|]. cbn [map values]. rewrite (value_word t Ht). cbn [bind_res]. now rewrite IH. Qed.
  Lemma values_options kvs : kw_values fd (map (fun kv => (fst kv, VInt (snd kv))) kvs) = Ok (map (fun kv => (fst kv, KVal (AObj (snd kv) false))) kvs).
  Proof. induction kvs as [|[k d] kvs IH]; [reflexivity|]. cbn [map kw_values kw_value value bind_res fst snd]. now rewrite IH. Qed.
  Lemma dashes_id k : ~ In 95%N k -> dashes k = k.
  Proof.
    induction k as [|c k IH]; intros H; [reflexivity|]. cbn [dashes map]. change (map ?f k) with (dashes k). rewrite IH by (intros I; apply H; now right).
    destruct (N.eqb_spec c 95) as [->|_]; [exfalso; apply H; now left|reflexivity].
  Qed.
  Lemma kws_ints kvs : Forall (fun kv => ~ In 95%N (fst kv)) kvs ->
    kws_words w cwd sc (map (fun kv => (fst kv, KVal (AObj (snd kv) false))) kvs) = Ok (map WStr (map option_word kvs)).
  Proof.
    intros H. induction H as [|[k d] kvs Hk H IH]; [reflexivity|]. cbn [map kws_words kw_words expand_one bind_res fst snd word_str app] in *.
    rewrite (dashes_id k Hk). rewrite IH. reflexivity.
  Qed.
  Lemma exec_strings ts : exec_argv (map WStr ts) = Ok ts.
  Proof. induction ts as [|t ts IH]; [reflexivity|]. cbn [map exec_argv]. now rewrite IH. Qed.
  Lemma flat_attrs p : flat_map step_words (map SAttr p) = map AStr p.
  Proof. induction p as [|x p IH]; cbn; congruence. Qed.
  Definition first_name (ns : list text) : text := match ns with [] => txt "_" | n :: _ => n end.
  Lemma name_words_spelled ns a kw : name_words ns -> (ns = [] -> a = [] -> kw = []) ->
    exists c, spell_env (first_name ns) (map SAttr (tl ns) ++ [SCall a kw]) = construct CBase (map AStr ns ++ a ++ dict_arg kw) /\
              spell_env (first_name ns) (map SAttr (tl ns)) = construct CBase (map AStr ns) /\
              (Forall (fun x => match x with ADict _ => False | APipe h _ => h = true | _ => True end) a -> construct CBase (map AStr ns ++ a ++ dict_arg kw) = Ok c) /\
              c_arg c = map AStr ns ++ a ++ dict_arg kw.
  Proof.
    intros [F N] Z.
    assert (FN : ~ In (first_name ns) env_reserved).
    { destruct ns as [|n ns]; [|exact (proj1 N)]. cbn [first_name]. intros K. vm_compute in K. repeat (destruct K as [K|K]; [discriminate K|]). exact K. }
    assert (TW : Forall writable (map SAttr (tl ns))).
    { rewrite Forall_map. destruct ns as [|n ns]; [constructor|]. exact (proj2 N). }
    assert (SP : forall ss, spelled (first_name ns) (map SAttr (tl ns) ++ ss) = map AStr ns ++ flat_map step_words ss).
    { intros ss. unfold spelled. rewrite flat_map_app, flat_attrs. destruct ns as [|n ns]; [reflexivity|]. cbn [first_name tl].
      rewrite text_eqb_neq; [reflexivity|]. intros ->. inversion F as [|? ? [S _] _]; subst. destruct S as (ws & E & S). destruct S as [|x ws [X1 X2] S]; [discriminate E|].
      destruct x as [|b x]; [congruence|]. inversion X2 as [|? ? B _]; subst. assert (b = 95%N) by (destruct ws; cbn [underscored app txt] in E; injection E; congruence).
      subst b. unfold lower_or_digit in B. lia. }
    eexists (mkCmd (match construct CBase (map AStr ns ++ a ++ dict_arg kw) with Ok d => c_cls d | Err _ => CBase end) _). split; [|split; [|split]].
    - rewrite spell_env_words; [|exact FN|apply Forall_app; split; [exact TW|repeat constructor]]. rewrite SP. cbn [flat_map step_words]. now rewrite app_nil_r.
    - rewrite spell_env_words by assumption. specialize (SP []). rewrite app_nil_r in SP. rewrite SP. cbn [flat_map]. now rewrite app_nil_r.
    - intros H. destruct ns as [|n ns]; [|reflexivity]. destruct a as [|x a].
      + rewrite Z by reflexivity. reflexivity.
      + inversion H as [|? ? Hx _]; subst. destruct x; try reflexivity; [|contradiction]. cbn. rewrite Hx. reflexivity.
    - reflexivity.
  Qed.
End Denoted.
Lemma pynames_of ns : name_words ns -> Forall pyname (first_name ns :: tl ns) /\ match ns with [] => [txt "_"] | l => l end = first_name ns :: tl ns.
Proof.
  intros [F _]. destruct ns as [|n ns].
  - split; [|reflexivity]. constructor; [|constructor]. split; [|split; [reflexivity|constructor]].
    intros K. vm_compute in K. repeat (destruct K as [K|K]; [discriminate K|]). exact K.
  - split; [|reflexivity]. eapply Forall_impl; [|exact F]. cbn. tauto.
Qed.
Lemma typed_gen fd ns items tl p kw a b : name_words ns -> items <> [] -> Forall2 scansE items tl -> reads_all tl [] [] p kw ->
  values fd p = Ok a -> kw_values fd kw = Ok b -> (ns = [] -> a = [] -> b = []) ->
  Forall (fun x => match x with ADict _ => False | APipe h _ => h = true | _ => True end) a ->
  exists c, typed_in fd (join_with (txt ".") (match ns with [] => [txt "_"] | l => l end) ++ txt "(" ++ join_with (txt ", ") items ++ txt ")") c /\
            construct CBase (map AStr ns ++ a ++ dict_arg b) = Ok c /\ c_arg c = map AStr ns ++ a ++ dict_arg b.
Proof.
  intros W Z S R VA VB E NA. destruct (pynames_of ns W) as [PN ->].
  destruct (name_words_spelled ns a b W E) as (c & S1 & _ & S2 & CA). exists c. split; [|split; [exact (S2 NA)|exact CA]].
  exists (mkL (first_name ns) (List.tl ns) (Some (p, kw))). split; [now apply (read_call (first_name ns) (List.tl ns) items tl)|].
  unfold denoted. cbn [l_call l_first l_attrs]. rewrite VA, VB. cbn [bind_res]. rewrite S1. exact (S2 NA).
Qed.
Lemma typed_fun fd t c d : typed_in fd t c -> typed_in fd t d -> c = d.
Proof. intros (l & A & B) (m & C & D). congruence. Qed.
Lemma runs_fun w cwd sc c x y : runs_as w cwd sc c x -> runs_as w cwd sc c y -> x = y.
Proof. intros (l & A & B) (m & C & D). congruence. Qed.
Lemma strs_ok (ts : list text) : Forall (fun x => match x with ADict _ => False | APipe h _ => h = true | _ => True end) (map AStr ts).
Proof. rewrite Forall_map. apply Forall_forall. reflexivity. Qed.
Lemma slugs_of ns : name_words ns -> Forall is_slug ns.
Proof. intros [F _]. eapply Forall_impl; [|exact F]. cbn. tauto. Qed.

Section Top.
  Context (printable : N -> bool) (slug : text -> text) (SL : slugifies slug) (fd : text -> nat).
  Context (w : world) (cwd : text) (sc : scope).
  Notation print := (cmdline2pieshell printable slug).
  Lemma retyped ns ts kvs ws : name_words ns -> Forall arg_word ts -> interleaved ts (map option_word kvs) ws ->
    match ws with [] => True | t :: _ => ~ is_slug t end ->
    Forall (fun kv => key_ok (fst kv) /\ integer (snd kv)) kvs -> NoDup (map fst kvs) -> (ns = [] -> ts = [] -> kvs = []) ->
    Forall (stays w cwd sc) (ns ++ ts) ->
    exists c, typed_in fd (print (ns ++ ws)) c /\ runs_as w cwd sc c (ns ++ ts ++ map option_word kvs) /\
      (forall x d, construct CBase (map AStr (ns ++ ts ++ x)) = Ok d -> ns ++ ts <> [] -> c_cls c = c_cls d).
  Proof.
    intros W A M B K D E ST.
    assert (K1 : Forall (fun kv => ~ In 61%N (fst kv)) kvs).
    { eapply Forall_impl; [|exact K]. cbn. intros kv [[P _] _]. now apply pyname_no. }
    assert (LO : Forall (fun t => ~ long_option t) ts) by (eapply Forall_impl; [|exact A]; exact arg_word_short).
    rewrite (printed printable slug SL ns ts kvs ws (slugs_of ns W) LO B K1 D M).
    assert (AL : arg_list w cwd sc (map AStr ns ++ map AStr ts ++ dict_arg (map (fun kv => (fst kv, KVal (AObj (snd kv) false))) kvs)) =
                 Ok (map WStr (ns ++ ts ++ map option_word kvs))).
    { rewrite app_assoc, <- map_app, arg_list_app, (arg_list_stays w cwd sc (ns ++ ts) ST). cbn [bind_res].
      assert (U : arg_list w cwd sc (dict_arg (map (fun kv => (fst kv, KVal (AObj (snd kv) false))) kvs)) = Ok (map WStr (map option_word kvs))).
      { destruct kvs as [|kv kvs]; [reflexivity|]. cbn [dict_arg map].
        change ((fst kv, KVal (AObj (snd kv) false)) :: map (fun kv => (fst kv, KVal (AObj (snd kv) false))) kvs) with (map (fun kv => (fst kv, KVal (AObj (snd kv) false))) (kv :: kvs)).
        cbn [arg_list arg_words]. rewrite kws_ints.
        - cbn [bind_res]. now rewrite app_nil_r.
        - eapply Forall_impl; [|exact K]. cbn. intros kv' [[_ P] _]. exact P. }
      rewrite U. cbn [bind_res]. rewrite !map_app. now rewrite app_assoc. }
    assert (CL : forall c x d, construct CBase (map AStr ns ++ map AStr ts ++ dict_arg (map (fun kv => (fst kv, KVal (AObj (snd kv) false))) kvs)) = Ok c ->
       construct CBase (map AStr (ns ++ ts ++ x)) = Ok d -> ns ++ ts <> [] -> c_cls c = c_cls d).
    { intros c x d. destruct ns as [|n ns]; [destruct ts as [|t ts]; [now intros _ _ []|]|]; cbn [map app construct dispatch bind_res]; intros X Y _; injection X as <-; injection Y as <-; reflexivity. }
    destruct (map (shown printable) ts ++ map (fun kv => fst kv ++ txt "=" ++ snd kv) kvs) as [|i items] eqn:EI.
    - apply app_eq_nil in EI. destruct EI as [E1 E2]. apply map_eq_nil in E1. apply map_eq_nil in E2. subst ts kvs. destruct (pynames_of ns W) as [PN ->].
      destruct (name_words_spelled ns [] [] W ltac:(reflexivity)) as (c & S1 & S3 & S2 & CA). specialize (S2 ltac:(constructor)). cbn [dict_arg map app] in *. rewrite app_nil_r in S1, S2, CA.
      exists c. split; [|split].
      + exists (mkL (first_name ns) (tl ns) None). split; [now apply read_names|]. unfold denoted. cbn [l_call l_first l_attrs]. now rewrite S3.
      + exists (map WStr (ns ++ [])). rewrite CA. rewrite app_nil_r in AL. split; [exact AL|apply exec_strings].
      + intros x d. apply (CL c x d). rewrite app_nil_r. exact S2.
    - rewrite <- EI.
      destruct (typed_gen fd ns (map (shown printable) ts ++ map (fun kv => fst kv ++ txt "=" ++ snd kv) kvs)
        (map tok_of ts ++ map (fun kv => [KName (fst kv); KEq; KNum (snd kv)]) kvs)
        (map val_of ts) (map (fun kv => (fst kv, VInt (snd kv))) kvs) (map AStr ts) (map (fun kv => (fst kv, KVal (AObj (snd kv) false))) kvs)) as (c & T & S2 & CA).
      + exact W.
      + rewrite EI. discriminate.
      + apply Forall2_app.
        * clear -A. induction A; constructor; [now apply shown_scans|assumption].
        * clear -K. induction K as [|kv kvs [[P _] I] K IH]; constructor; [now apply kv_scans|exact IH].
      + apply reads_words; [exact A|]. cbn [app]. apply (reads_options kvs); [|exact D]. eapply Forall_impl; [|exact K]. cbn. unfold key_ok. tauto.
      + now apply values_words.
      + apply values_options.
      + intros Z1 Z2. rewrite E; [reflexivity|exact Z1|]. destruct ts; [reflexivity|discriminate Z2].
      + apply strs_ok.
      + exists c. split; [exact T|]. split.
        * eexists. rewrite CA. split; [exact AL|]. apply exec_strings.
        * intros x d. now apply (CL c x d).
  Qed.

  (** ** What goes wrong *)
  Lemma names_kept l : forall s, exists m, ps_names (fold_left (ps_item printable slug) l s) = ps_names s ++ m.
  Proof.
    induction l as [|x l IH]; intros s; cbn [fold_left]; [exists []; now rewrite app_nil_r|].
    destruct (IH (ps_item printable slug s x)) as (m & E). rewrite E. unfold ps_item. destruct (negb (ps_param s || negb (text_eqb (slug x) x))).
    - cbn [ps_names]. exists (x :: m). now rewrite <- app_assoc.
    - exists m. destruct (if starts (txt "--") x then split_eq (skipn 2 x) else None) as [[k v]|]; [reflexivity|].
      destruct (starts (txt "-") x && negb (starts (txt "--") x)); reflexivity.
  Qed.
  Lemma number_first r : forall acc l, tokens_from (InNum acc) r = Some l -> exists t l', l = KNum t :: l'.
  Proof.
    induction r as [|c r IH]; intros acc l H; cbn [tokens_from next_char] in H; [injection H as <-; eauto|].
    destruct (in_range 48 57 c).
    - destruct (match acc with [48%N] => true | _ => false end); [discriminate|].
      destruct (tokens_from (InNum (acc ++ [c])) r) as [l'|] eqn:E; [|discriminate]. injection H as <-. cbn [app]. now apply IH in E.
    - destruct (is_letter c); [discriminate|]. destruct (first_char c) as [[l1 s1]|]; [|discriminate]. destruct (tokens_from s1 r); [|discriminate].
      injection H as <-. cbn [app]. eauto.
  Qed.
  Lemma join_more ns d m : ns <> [] -> exists z, join_with (txt ".") (ns ++ d :: m) = join_with (txt ".") ns ++ 46%N :: d ++ z.
  Proof.
    intros Z. induction ns as [|n ns IH]; [congruence|]. destruct ns as [|n' ns].
    - cbn [app]. destruct m as [|x m].
      + exists []. rewrite app_nil_r. reflexivity.
      + exists (46%N :: join_with (txt ".") (x :: m)). reflexivity.
    - destruct IH as (z & E); [discriminate|]. exists z. change ((n :: n' :: ns) ++ d :: m) with (n :: (n' :: (ns ++ d :: m))).
      change (join_with (txt ".") (n :: n' :: ns ++ d :: m)) with (n ++ 46%N :: join_with (txt ".") ((n' :: ns) ++ d :: m)). rewrite E.
      change (join_with (txt ".") (n :: n' :: ns)) with (n ++ 46%N :: join_with (txt ".") (n' :: ns)). now rewrite <- app_assoc.
  Qed.
  Lemma digits_slug d : digits d -> is_slug d.
  Proof. intros [A B]. exists [d]. split; [reflexivity|]. constructor; [|constructor]. split; [exact A|]. eapply Forall_impl; [|exact B]. intros c H. right. exact H. Qed.
  Lemma number_untypable ns d more c : name_words ns -> ns <> [] -> digits d -> ~ typed_in fd (print (ns ++ d :: more)) c.
  Proof.
    intros W Z D (l & R & _). unfold read_line in R.
    assert (E : exists z, print (ns ++ d :: more) = join_with (txt ".") ns ++ 46%N :: d ++ z).
    { unfold cmdline2pieshell. rewrite fold_left_app. rewrite (print_names printable slug SL ns (slugs_of ns W) []). cbn [app fold_left].
      assert (Q : ps_item printable slug (mkPs false ns [] []) d = mkPs false (ns ++ [d]) [] []).
      { unfold ps_item. cbn [ps_param ps_names ps_args ps_kw orb]. rewrite (slugged slug SL d (digits_slug d D)). reflexivity. }
      rewrite Q. destruct (names_kept more (mkPs false (ns ++ [d]) [] [])) as (m & E). cbn [ps_names] in E. rewrite <- app_assoc in E. cbn [app] in E. rewrite E.
      destruct (join_more ns d m Z) as (z & J). destruct ns as [|n ns]; [congruence|]. cbn [app] in *.
      match goal with |- context [match ?X with [] => _ | _ => _ end] => destruct X end.
      - now exists z.
      - eexists. rewrite J. rewrite <- app_assoc. cbn [app]. rewrite <- app_assoc. reflexivity. }
    destruct E as (z & E). rewrite E in R. unfold tokens in R. destruct (pynames_of ns W) as [PN J]. destruct ns as [|n ns]; [congruence|]. cbn [first_name tl] in *.
    rewrite (scansE_pynames (n :: ns) Z PN) in R by reflexivity. cbn [tokens_from next_char] in R. change (first_char 46%N) with (Some ([KDot], Between)) in R.
    destruct D as [DZ DD]. destruct d as [|a d]; [congruence|]. inversion DD as [|? ? Da _]; subst. cbn [app tokens_from next_char] in R. rewrite (first_digit a Da) in R.
    destruct (tokens_from (InNum [a]) (d ++ z)) as [l'|] eqn:T; [|discriminate R]. apply number_first in T. destruct T as (t & l2 & ->). cbn [app] in R.
    rewrite take_first in R by exact PN. cbn [take_all take] in R. discriminate R.
  Qed.
  Lemma one_option ns k v toks val b : name_words ns -> ns <> [] -> pyname k -> scansE (k ++ txt "=" ++ v) toks -> reads toks [] [] [] [(k, val)] ->
    kw_value fd val = Ok b -> exists c, typed_in fd (print (ns ++ [option_word (k, v)])) c /\ c_arg c = map AStr ns ++ [ADict [(k, b)]].
  Proof.
    intros W Z K S R V. rewrite (printed printable slug SL ns [] [(k, v)] [option_word (k, v)] (slugs_of ns W)).
    - cbn [map app fst snd].
      destruct (typed_gen fd ns [k ++ txt "=" ++ v] [toks] [] [(k, val)] [] [(k, b)]) as (c & T & _ & CA); [exact W|discriminate| | | | |contradiction|constructor|].
      + constructor; [exact S|constructor].
      + apply (ra_cons _ _ _ _ [] [(k, val)]); [exact R|constructor].
      + reflexivity.
      + cbn [kw_values]. rewrite V. reflexivity.
      + exists c. split; [exact T|exact CA].
    - constructor.
    - exact (dash_not_slug (txt "-" ++ k ++ txt "=" ++ v)).
    - constructor; [|constructor]. cbn [fst]. now apply pyname_no.
    - repeat constructor. intros [].
    - repeat constructor.
  Qed.
  Lemma runs_dict ns x ws c : c_arg c = map AStr ns ++ [x] -> Forall (stays w cwd sc) ns -> arg_words w cwd sc x = Ok (map WStr ws) -> runs_as w cwd sc c (ns ++ ws).
  Proof.
    intros E ST X. exists (map WStr (ns ++ ws)). split; [|apply exec_strings]. rewrite E, arg_list_app, (arg_list_stays w cwd sc ns ST). cbn [bind_res arg_list]. rewrite X.
    cbn [bind_res]. rewrite app_nil_r, map_app. reflexivity.
  Qed.
  Lemma value_run ns k v : name_words ns -> ns <> [] -> pyname k -> names_command v -> Forall (stays w cwd sc) ns ->
    exists c, typed_in fd (print (ns ++ [option_word (k, v)])) c /\ c_arg c = map AStr ns ++ [ADict [(k, KVal (APipe true (fd v)))]] /\
      runs_as w cwd sc c (ns ++ [txt "--" ++ dashes k ++ txt "=" ++ txt "/dev/fd/" ++ fd_text (fd v)]) /\ ~ runs_as w cwd sc c (ns ++ [option_word (k, v)]).
  Proof.
    intros W Z K V ST. destruct V as (V & V1 & V2).
    destruct (one_option ns k v [KName k; KEq; KName v] (VName v) (KVal (APipe true (fd v))) W Z K) as (c & T & CA).
    - apply kvname_scans; [exact K|now left].
    - apply (reads_kwname k v [] []); [exact K|intros []|now apply name_value_name].
    - cbn [kw_value value]. destruct (env_command v) as (d & E & _); [repeat split; try assumption; apply V|]. now rewrite E.
    - assert (R : runs_as w cwd sc c (ns ++ [txt "--" ++ dashes k ++ txt "=" ++ txt "/dev/fd/" ++ fd_text (fd v)])).
      { apply (runs_dict ns (ADict [(k, KVal (APipe true (fd v)))])); [exact CA|exact ST|]. cbn [arg_words kws_words kw_words expand_one]. rewrite fd_word. reflexivity. }
      exists c. split; [exact T|]. split; [exact CA|]. split; [exact R|]. intros R'. pose proof (runs_fun _ _ _ _ _ _ R R') as E. apply app_inv_head in E. unfold option_word in E. cbn [fst snd] in E.
      assert (I : In 47%N (txt "--" ++ k ++ txt "=" ++ v)).
      { apply (f_equal (hd [])) in E. cbn [hd] in E. rewrite <- E. apply in_or_app. right. apply in_or_app. right. apply in_or_app. right. apply in_or_app. left. now left. }
      apply in_app_or in I. destruct I as [[I|[I|[]]]|I]; [discriminate I|discriminate I|]. apply in_app_or in I. destruct I as [I|I]; [exact (pyname_no k 47%N K eq_refl I)|].
      apply in_app_or in I. destruct I as [[I|[]]|I]; [discriminate I|exact (pyname_no v 47%N V eq_refl I)].
  Qed.
  Lemma bool_run ns k (b : bool) : name_words ns -> ns <> [] -> pyname k -> Forall (stays w cwd sc) ns ->
    exists c, typed_in fd (print (ns ++ [option_word (k, txt (if b then "True" else "False")%string)])) c /\
      runs_as w cwd sc c (ns ++ (if b then [txt "--" ++ dashes k] else [])).
  Proof.
    intros W Z K ST. set (v := txt (if b then "True" else "False")%string).
    destruct (one_option ns k v [KName k; KEq; KName v] (VBool b) (if b then KTrue else KFalse) W Z K) as (c & T & CA).
    - apply kvname_scans; [exact K|right]. unfold v. destruct b; cbn; tauto.
    - apply (reads_kwname k v [] []); [exact K|intros []|]. unfold v. destruct b; reflexivity.
    - destruct b; reflexivity.
    - exists c. split; [exact T|]. apply (runs_dict ns _ _ c CA ST). destruct b; reflexivity.
  Qed.
  Lemma repeated_run ns k d1 d2 : name_words ns -> ns <> [] -> key_ok k -> integer d2 -> Forall (stays w cwd sc) ns ->
    exists c, typed_in fd (print (ns ++ [option_word (k, d1); option_word (k, d2)])) c /\ runs_as w cwd sc c (ns ++ [option_word (k, d2)]).
  Proof.
    intros W Z [K K'] D ST.
    assert (E : print (ns ++ [option_word (k, d1); option_word (k, d2)]) = print (ns ++ [option_word (k, d2)])).
    { unfold cmdline2pieshell. rewrite !fold_left_app. rewrite (print_names printable slug SL ns (slugs_of ns W) []). cbn [app fold_left].
      rewrite !(item_option printable slug SL) by (now apply pyname_no). cbn [dict_set]. now rewrite text_eqb_refl. }
    rewrite E. destruct (one_option ns k d2 [KName k; KEq; KNum d2] (VInt d2) (KVal (AObj d2 false)) W Z K) as (c & T & CA).
    - now apply kv_scans.
    - apply (reads_int k d2 [] []); [exact K|intros []].
    - reflexivity.
    - exists c. split; [exact T|]. apply (runs_dict ns _ _ c CA ST). cbn [arg_words kws_words kw_words expand_one bind_res map app word_str]. now rewrite (dashes_id k K').
  Qed.
  Lemma one_dash ns u toks p a : name_words ns -> ns <> [] -> ~ (exists r, u = txt "-" ++ r) -> scansE (txt "-" ++ u) toks -> reads toks [] [] p [] ->
    values fd p = Ok a -> Forall (fun x => match x with ADict _ => False | APipe h _ => h = true | _ => True end) a ->
    exists c, typed_in fd (print (ns ++ [txt "-" ++ u])) c /\ c_arg c = map AStr ns ++ a.
  Proof.
    intros W Z ND S R V NA.
    assert (SH : starts (txt "-") (txt "-" ++ u) && negb (starts (txt "--") (txt "-" ++ u)) = true).
    { rewrite starts_app. cbn [andb]. apply Bool.negb_true_iff. apply starts_false. intros (r & E). apply ND. exists r.
      change (txt "--" ++ r) with (txt "-" ++ (txt "-" ++ r)) in E. now apply app_inv_head in E. }
    rewrite (printed printable slug SL ns [txt "-" ++ u] [] [txt "-" ++ u] (slugs_of ns W)).
    - unfold shown. cbn [map app]. rewrite SH.
      destruct (typed_gen fd ns [txt "-" ++ u] [toks] p [] a []) as (c & T & _ & CA); [exact W|discriminate| | |exact V|reflexivity|contradiction|exact NA|].
      + constructor; [exact S|constructor].
      + apply (ra_cons _ _ _ _ p []); [exact R|constructor].
      + exists c. split; [exact T|]. rewrite CA. cbn [dict_arg]. now rewrite app_nil_r.
    - constructor; [|constructor]. intros (k & v & E). change (txt "--" ++ k ++ txt "=" ++ v) with (txt "-" ++ (txt "-" ++ k ++ txt "=" ++ v)) in E.
      apply app_inv_head in E. apply ND. eauto.
    - apply dash_not_slug.
    - constructor.
    - constructor.
    - repeat constructor.
  Qed.
  Lemma negative_run ns d : name_words ns -> ns <> [] -> integer d -> exists c, typed_in fd (print (ns ++ [txt "-" ++ d])) c /\ forall argv, ~ runs_as w cwd sc c argv.
  Proof.
    intros W Z D. destruct (one_dash ns d [KMinus; KNum d] [VNegInt d] [AObj (txt "-" ++ d) false] W Z) as (c & T & CA).
    - intros (r & ->). destruct D as [[_ D] _]. inversion D as [|? ? X _]; subst. unfold digit in X. cbn in X. lia.
    - change [KMinus; KNum d] with ([KMinus] ++ [KNum d]). apply scansE_sep; [now apply scans_one|now apply scansE_int].
    - apply reads_negint.
    - reflexivity.
    - repeat constructor.
    - exists c. split; [exact T|]. intros argv (l & A & B). rewrite CA, arg_list_app in A. destruct (arg_list w cwd sc (map AStr ns)) as [x|]; [|discriminate A].
      cbn [bind_res arg_list arg_words expand_one app] in A. injection A as <-. clear -B. revert argv B. induction x as [|[t|t [|]] x IH]; intros argv B; cbn [app exec_argv] in B; try discriminate B.
      + match type of B with bind_res ?Q _ = _ => destruct Q as [y|] eqn:E end; [|discriminate B]. exact (IH y eq_refl).
      + match type of B with bind_res ?Q _ = _ => destruct Q as [y|] eqn:E end; [|discriminate B]. exact (IH y eq_refl).
  Qed.
  Lemma comma_run ns a b : name_words ns -> ns <> [] -> names_command a -> names_command b -> Forall (stays w cwd sc) (ns ++ [txt "-" ++ a]) ->
    exists c, typed_in fd (print (ns ++ [txt "-" ++ a ++ txt "," ++ b])) c /\ c_arg c = map AStr ns ++ [AStr (txt "-" ++ a); APipe true (fd b)] /\
      runs_as w cwd sc c (ns ++ [txt "-" ++ a; txt "/dev/fd/" ++ fd_text (fd b)]).
  Proof.
    intros W Z A B ST.
    destruct (one_dash ns (a ++ txt "," ++ b) [KMinus; KName a; KComma; KName b] [VNegName a; VName b] [AStr (txt "-" ++ a); APipe true (fd b)] W Z) as (c & T & CA).
    - intros (r & E). destruct A as [A _]. pose proof (proj2 A) as A'. destruct a as [|x a]; [contradiction|]. injection E as -> E. destruct A' as [X _]. discriminate X.
    - change [KMinus; KName a; KComma; KName b] with ([KMinus] ++ ([KName a] ++ ([KComma] ++ [KName b]))). apply scansE_sep; [now apply scans_one|].
      change (txt "," ++ b) with (44%N :: b). apply scansE_app; [apply scansE_pyname, A|reflexivity|]. change (44%N :: b) with ([44%N] ++ b).
      apply scansE_sep; [now apply scans_one|apply scansE_pyname, B].
    - intros f ns' k rest H. change ([KMinus; KName a; KComma; KName b] ++ k :: rest) with ([KMinus; KName a] ++ KComma :: ([KName b] ++ k :: rest)).
      rewrite (reads_option a [] (proj1 A)) by now left. cbn [take_all take app]. exact (reads_name b [VNegName a] (proj1 B) f ns' k rest H).
    - cbn [values value]. destruct (env_command a A) as (d & E & EA). rewrite E. cbn [bind_res]. unfold neg. rewrite EA. cbn [bind_res].
      destruct (env_command b B) as (e & E' & _). rewrite E'. reflexivity.
    - repeat constructor.
    - exists c. split; [exact T|]. split; [exact CA|]. exists (map WStr (ns ++ [txt "-" ++ a; txt "/dev/fd/" ++ fd_text (fd b)])). split; [|apply exec_strings].
      rewrite CA. change [AStr (txt "-" ++ a); APipe true (fd b)] with (map AStr [txt "-" ++ a] ++ [APipe true (fd b)]). rewrite app_assoc, <- map_app, arg_list_app, (arg_list_stays w cwd sc _ ST).
      cbn [bind_res arg_list arg_words expand_one]. rewrite fd_word. cbn [bind_res]. rewrite !map_app. rewrite <- app_assoc. reflexivity.
  Qed.

  Lemma word_run ns t : name_words ns -> arg_word t -> ~ is_slug t -> Forall (stays w cwd sc) ns ->
    exists c, typed_in fd (print (ns ++ [t])) c /\ (runs_as w cwd sc c (ns ++ [t]) <-> stays w cwd sc t).
  Proof.
    intros W A B ST.
    rewrite (printed printable slug SL ns [t] [] [t] (slugs_of ns W)).
    - cbn [map app].
      destruct (typed_gen fd ns [shown printable t] [tok_of t] [val_of t] [] [AStr t] []) as (c & T & _ & CA); [exact W|discriminate| | | |reflexivity|reflexivity|repeat constructor|].
      + constructor; [now apply shown_scans|constructor].
      + pose proof (reads_words [t] ltac:(now constructor) [] [] [val_of t] []) as R. apply R. constructor.
      + cbn [values]. now rewrite (value_word fd t A).
      + exists c. split; [exact T|]. unfold runs_as. rewrite CA. cbn [dict_arg]. rewrite app_nil_r.
        rewrite arg_list_app, (arg_list_stays w cwd sc ns ST). cbn [bind_res arg_list arg_words expand_one]. unfold stays.
        destruct (expand_str w cwd sc t) as [x|e]; cbn [bind_res].
        * rewrite app_nil_r, <- map_app. split.
          -- intros (l & E1 & E2). injection E1 as <-. rewrite exec_strings in E2. injection E2 as E2. apply app_inv_head in E2. now subst x.
          -- intros E. injection E as ->. eexists. split; [reflexivity|]. apply exec_strings.
        * split; [intros (l & E1 & _); discriminate E1|discriminate].
    - constructor; [now apply arg_word_short|constructor].
    - exact B.
    - constructor.
    - constructor.
    - repeat constructor.
  Qed.
End Top.
