(** Facts about whole outlines: which components, which identifiers. *)

From Coq Require Import String Ascii List Arith NArith Bool Lia.
From Verif Require Import GoStr Utf8 Base Utils GenGo GenC GenJava GenRust GenTS Parser StrLemmas SpecStr SpecGen
  StrProofs ParserProofs GenLemmas GenOutline GenRun GenNames NameProofs.
From Verif Require GenText.
Import ListNotations.
Local Open Scope string_scope.

Local Infix "+++" := app (at level 60, right associativity).

(** * Which components *)

Lemma enumerated_ts : forall l p, l <> TypeScript -> enumerated l p = false.
Proof. intros [] p H; try reflexivity. congruence. Qed.

Lemma rendered_sub : forall l tree seen, subsequence (map fst (rendered l seen tree)) tree.
Proof.
  intros l. induction tree as [|p tree IH]; intros seen; cbn [rendered]; [constructor|].
  destruct (proto_name p) as [n|]; [|constructor; apply IH].
  destruct (in_dec string_dec n seen).
  - destruct (enumerated l p); cbn [map fst]; constructor; apply IH.
  - destruct (enumerated l p && negb (listed p)); cbn [map fst]; constructor; apply IH.
Qed.

(** Components recorded by name: every name at most once. *)
Definition recorded_name (x : proto * bool) : list string :=
  if snd x then [] else match proto_name (fst x) with Some n => [n] | None => [] end.

Lemma rendered_names : forall l tree seen,
  NoDup (flat_map recorded_name (rendered l seen tree)) /\
  forall n, In n seen -> ~ In n (flat_map recorded_name (rendered l seen tree)).
Proof.
  intros l. induction tree as [|p tree IH]; intros seen; cbn [rendered].
  - split; [constructor | intros n _ []].
  - destruct (proto_name p) as [n|] eqn:Hn; [|apply IH].
    destruct (in_dec string_dec n seen) as [Hin|Hin].
    + destruct (enumerated l p); [|apply IH]. cbn [flat_map recorded_name snd app]. apply IH.
    + destruct (enumerated l p && negb (listed p)).
      * cbn [flat_map recorded_name snd app]. apply IH.
      * destruct (IH (n :: seen)) as [H1 H2]. cbn [flat_map]. unfold recorded_name at 1 3. cbn [fst snd]. rewrite Hn.
        cbn [app]. split.
        -- constructor; [apply H2; now left | exact H1].
        -- intros k Hk [<-|H]; [contradiction|]. apply (H2 k); [now right | exact H].
Qed.

(** Only the first component of a name is recorded. *)
Lemma rendered_first : forall l tree seen p, In (p, false) (rendered l seen tree) ->
  exists pre post n, tree = pre +++ p :: post /\ proto_name p = Some n /\ ~ In n seen /\
    forall q, In q pre -> proto_name q = Some n -> enumerated l q = true /\ listed q = false.
Proof.
  intros l. induction tree as [|q tree IH]; intros seen p Hp; cbn [rendered] in Hp; [contradiction|].
  assert (Hskip : forall seen', In (p, false) (rendered l seen' tree) ->
    (forall n, proto_name q = Some n -> In n seen' \/ (enumerated l q = true /\ listed q = false)) ->
    (forall n, In n seen -> In n seen') ->
    exists pre post n, q :: tree = pre +++ p :: post /\ proto_name p = Some n /\ ~ In n seen /\
    forall x, In x pre -> proto_name x = Some n -> enumerated l x = true /\ listed x = false).
  { intros seen' H Hq Hs. destruct (IH seen' p H) as [pre [post [n [-> [Hn [Hns Hpre]]]]]].
    exists (q :: pre), post, n. split; [reflexivity|]. split; [exact Hn|]. split; [intros Hi; apply Hns; auto|].
    intros x [<-|Hx] Hxn; [|now apply Hpre]. destruct (Hq n Hxn) as [Hc|Hc]; [contradiction | exact Hc]. }
  destruct (proto_name q) as [n|] eqn:Hn; [|apply (Hskip seen Hp); [intros n [=] | auto]].
  destruct (in_dec string_dec n seen) as [Hin|Hin].
  - destruct (enumerated l q).
    + destruct Hp as [Hp|Hp]; [discriminate|]. apply (Hskip seen Hp); [|auto]. intros k [= <-]. now left.
    + apply (Hskip seen Hp); [|auto]. intros k [= <-]. now left.
  - destruct (enumerated l q && negb (listed q)) eqn:He.
    + apply andb_true_iff in He as [He Hl]. apply negb_true_iff in Hl.
      destruct Hp as [Hp|Hp]; [discriminate|]. apply (Hskip seen Hp); [|auto]. intros k _. right. now split.
    + destruct Hp as [Hp|Hp].
      * injection Hp as ->. exists [], tree, n. split; [reflexivity|]. split; [exact Hn|]. split; [exact Hin|]. intros x [].
      * apply (Hskip (n :: seen) Hp); [intros k [= <-]; left; now left | intros k Hk; now right].
Qed.

Lemma rendered_enum : forall l tree seen p, In (p, true) (rendered l seen tree) -> enumerated l p = true /\ In p tree.
Proof.
  intros l. induction tree as [|q tree IH]; intros seen p Hp; cbn [rendered] in Hp; [contradiction|].
  assert (Hrec : forall seen', In (p, true) (rendered l seen' tree) -> enumerated l p = true /\ In p (q :: tree)).
  { intros seen' H. destruct (IH seen' p H). split; [assumption | now right]. }
  destruct (proto_name q) as [n|]; [|eauto].
  destruct (in_dec string_dec n seen).
  - destruct (enumerated l q) eqn:He; [|eauto]. destruct Hp as [Hp|Hp]; [|eauto].
    injection Hp as ->. split; [exact He | now left].
  - destruct (enumerated l q && negb (listed q)) eqn:He.
    + apply andb_true_iff in He as [He _]. destruct Hp as [Hp|Hp]; [|eauto].
      injection Hp as ->. split; [exact He | now left].
    + destruct Hp as [Hp|Hp]; [discriminate | eauto].
Qed.

(** Every name gets a declaration. *)
Lemma rendered_complete : forall l tree seen p n, In p tree -> proto_name p = Some n -> ~ In n seen ->
  exists q e, In (q, e) (rendered l seen tree) /\ proto_name q = Some n.
Proof.
  intros l. induction tree as [|q tree IH]; intros seen p n Hp Hn Hs; [contradiction|]. cbn [rendered].
  destruct (proto_name q) as [m|] eqn:Hm.
  - destruct (string_dec m n) as [Heq|Hne].
    + subst m. destruct (in_dec string_dec n seen); [contradiction|].
      destruct (enumerated l q && negb (listed q)); exists q; eexists; (split; [now left | exact Hm]).
    + assert (Hp' : In p tree) by (destruct Hp as [->|Hp]; [congruence | exact Hp]).
      destruct (in_dec string_dec m seen).
      * destruct (IH seen p n Hp' Hn Hs) as [x [e [Hx Hxn]]]. destruct (enumerated l q); exists x, e; split; auto. now right.
      * destruct (enumerated l q && negb (listed q)).
        -- destruct (IH seen p n Hp' Hn Hs) as [x [e [Hx Hxn]]]. exists x, e. split; [now right | exact Hxn].
        -- destruct (IH (m :: seen) p n Hp' Hn) as [x [e [Hx Hxn]]]; [intros [H|H]; [congruence | contradiction]|].
           exists x, e. split; [now right | exact Hxn].
  - assert (Hp' : In p tree) by (destruct Hp as [->|Hp]; [congruence | exact Hp]). eauto.
Qed.

(** Every enumeration is rendered in TypeScript. *)
Lemma rendered_all_enums : forall tree seen v, In (PSimple v) tree -> st_list v = false ->
  enumerated TypeScript (PSimple v) = true -> In (PSimple v, true) (rendered TypeScript seen tree).
Proof.
  induction tree as [|q tree IH]; intros seen v Hv Hl He; [contradiction|]. cbn [rendered].
  destruct Hv as [->|Hv].
  - cbn [proto_name]. rewrite He. cbn [listed]. rewrite Hl. cbn [negb andb].
    destruct (in_dec string_dec (st_name v) seen); now left.
  - destruct (proto_name q) as [n|]; [|now apply IH].
    destruct (in_dec string_dec n seen).
    + destruct (enumerated TypeScript q); [right|]; now apply IH.
    + destruct (enumerated TypeScript q && negb (listed q)); right; now apply IH.
Qed.

(** * Identifiers *)

Section Facts.
Context {E : Env}.

Lemma identifiers_length : forall l ps used, length (identifiers l used ps) = length ps.
Proof.
  intros l. induction ps as [|p ps IH]; intros used; [reflexivity|]. cbn [identifiers].
  destruct (counting l p); cbn [length]; now rewrite IH.
Qed.

Lemma combine_fst : forall A B (a : list A) (b : list B), length b = length a -> map fst (combine a b) = a.
Proof.
  intros A B. induction a as [|x a IH]; intros [|y b] H; try discriminate; [reflexivity|].
  cbn. f_equal. apply IH. now injection H.
Qed.

Lemma combine_snd : forall A B (a : list A) (b : list B), length b = length a -> map snd (combine a b) = b.
Proof.
  intros A B. induction a as [|x a IH]; intros [|y b] H; try discriminate; [reflexivity|].
  cbn. f_equal. apply IH. now injection H.
Qed.

Lemma in_combine_ex : forall A B (a : list A) (b : list B) x, length b = length a -> In x a -> exists y, In (x, y) (combine a b).
Proof.
  intros A B. induction a as [|x a IH]; intros [|y b] z H Hz; try discriminate; [contradiction|].
  destruct Hz as [->|Hz]; [exists y; now left|]. destruct (IH b z) as [u Hu]; [now injection H | exact Hz|].
  exists u. now right.
Qed.

Lemma uses_zero : forall n used, ~ In n used -> uses n used = 0.
Proof. intros n used H. now apply count_occ_not_In. Qed.

(** Pairwise different names stay as they are. *)
Lemma identifiers_plain : forall l ps used,
  NoDup (map (plain_ident l) ps) -> (forall n, In n (map (plain_ident l) ps) -> ~ In n used) ->
  identifiers l used ps = map (plain_ident l) ps.
Proof.
  intros l. induction ps as [|p ps IH]; intros used Hd Hu; [reflexivity|].
  cbn [map] in Hd, Hu. inversion Hd as [|? ? Hn Hd']; subst. cbn [identifiers map].
  assert (Hz : uses (plain_ident l p) used = 0) by (apply uses_zero, Hu; now left).
  rewrite Hz. change (numbered (plain_ident l p) 1) with (plain_ident l p).
  destruct (counting l p).
  - rewrite IH; [reflexivity | exact Hd'|]. intros n Hi [Heq|Hin]; [subst; contradiction|].
    apply (Hu n); [now right | exact Hin].
  - rewrite IH; [reflexivity | exact Hd'|]. intros n Hi. apply Hu. now right.
Qed.

Lemma digits_end : forall s, all_bytes is_digit s = true -> s <> "" -> forall t, ends_in_digit (t ++ s).
Proof.
  induction s as [|a s IH]; intros H Hne t; [congruence|].
  cbn in H. apply andb_true_iff in H as [Ha Hs]. destruct s as [|b s].
  - exists t, a. split; [reflexivity | exact Ha].
  - replace (t ++ String a (String b s)) with ((t ++ String a "") ++ String b s) by now rewrite app_assoc_s.
    apply IH; [exact Hs | discriminate].
Qed.

Lemma digits_split : forall a b n m, ~ ends_in_digit a -> ~ ends_in_digit b -> a ++ itoa n = b ++ itoa m -> a = b /\ n = m.
Proof.
  intros a b n m Ha Hb H.
  assert (Hgen : forall x a b, ~ ends_in_digit a -> ~ ends_in_digit b -> all_bytes is_digit x = true ->
    forall y, all_bytes is_digit y = true -> a ++ x = b ++ y -> a = b).
  { clear. intros x a. revert x. induction a as [|c a IH]; intros x b Ha Hb Hx y Hy H.
    - destruct b as [|d b]; [reflexivity|]. exfalso. cbn in H. subst x.
      cbn in Hx. apply andb_true_iff in Hx as [Hd Hx]. rewrite all_bytes_app in Hx.
      apply andb_true_iff in Hx as [Hx _]. apply Hb. apply (digits_end (String d b)) with (t := "");
      [cbn; now rewrite Hd, Hx | discriminate].
    - destruct b as [|d b].
      + exfalso. cbn in H. subst y. cbn in Hy. apply andb_true_iff in Hy as [Hd Hy].
        rewrite all_bytes_app in Hy. apply andb_true_iff in Hy as [Hy _]. apply Ha.
        apply (digits_end (String c a)) with (t := ""); [cbn; now rewrite Hd, Hy | discriminate].
      + cbn in H. injection H as <- H. f_equal.
        assert (Ha' : ~ ends_in_digit a).
        { intros [t [e [-> He]]]. apply Ha. exists (String c t), e. split; [reflexivity | exact He]. }
        assert (Hb' : ~ ends_in_digit b).
        { intros [t [e [-> He]]]. apply Hb. exists (String c t), e. split; [reflexivity | exact He]. }
        exact (IH x b Ha' Hb' Hx y Hy H). }
  assert (a = b) by (eapply Hgen; eauto using itoa_digits). subst. split; [reflexivity|].
  apply app_inj_l in H. now apply itoa_inj.
Qed.

Lemma numbered_inj : forall a b i j, ~ ends_in_digit a -> ~ ends_in_digit b -> 1 <= i -> 1 <= j ->
  numbered a i = numbered b j -> a = b /\ i = j.
Proof.
  intros a b i j Ha Hb Hi Hj H. unfold numbered in H.
  assert (Hend : forall s k, ~ ends_in_digit (s ++ itoa k) -> False).
  { intros s k Hk. apply Hk. apply digits_end; [apply itoa_digits | apply itoa_nonempty]. }
  destruct (Nat.eqb_spec i 1), (Nat.eqb_spec j 1); try lia.
  - split; [exact H | lia].
  - exfalso. subst a. eauto.
  - exfalso. subst b. eauto.
  - destruct (digits_split a b _ _ Ha Hb H) as [-> Hn]. split; [reflexivity | lia].
Qed.

Lemma identifiers_in : forall l ps used id, Forall (fun p => counting l p = true) ps -> In id (identifiers l used ps) ->
  exists p k, In p ps /\ id = numbered (plain_ident l p) k /\ uses (plain_ident l p) used < k.
Proof.
  intros l. induction ps as [|p ps IH]; intros used id Hc Hin; [contradiction|].
  inversion Hc as [|? ? Hp Hps]; subst. cbn [identifiers] in Hin. rewrite Hp in Hin.
  destruct Hin as [<-|Hin].
  - exists p, (S (uses (plain_ident l p) used)). repeat split; [now left | lia].
  - destruct (IH _ id Hps Hin) as [q [k [Hq [-> Hk]]]]. exists q, k. split; [now right|]. split; [reflexivity|].
    unfold uses in *. cbn [count_occ] in Hk. destruct (string_dec _ _); lia.
Qed.

(** Numbers keep names apart that do not end in a digit. *)
Lemma identifiers_numbered : forall l ps used, Forall (fun p => counting l p = true) ps ->
  Forall (fun p => ~ ends_in_digit (plain_ident l p)) ps -> NoDup (identifiers l used ps).
Proof.
  intros l. induction ps as [|p ps IH]; intros used Hc Hd; [constructor|].
  inversion Hc as [|? ? Hp Hps]; subst. inversion Hd as [|? ? Hp' Hps']; subst. cbn [identifiers]. rewrite Hp.
  constructor; [|now apply IH]. intros Hin.
  destruct (identifiers_in l ps _ _ Hps Hin) as [q [k [Hq [Heq Hk]]]].
  apply numbered_inj in Heq; [| exact Hp' | | lia | lia].
  - destruct Heq as [Heq <-]. rewrite Heq in Hk. unfold uses in Hk. cbn [count_occ] in Hk.
    destruct (string_dec (plain_ident l q) (plain_ident l q)); [lia | congruence].
  - rewrite Forall_forall in Hps'. now apply Hps'.
Qed.

(** * Reading declared identifiers *)

Definition decl_ident (l : lang) (p : proto) (id : string) : string :=
  match l, p with
  | C, PSimple v => if negb (st_list v) && is_union v then id else plain_ident l p
  | C, PAttribute _ => plain_ident l p
  | _, _ => id
  end.

(** Nothing, or a blank and more. *)
Definition stops (c : ascii) (s : string) : Prop := s = "" \/ exists r, s = String c r.

Lemma split_stop : forall c a r, has_char c a = false -> stops c r -> exists t, split_on c (a ++ r) = a :: t.
Proof.
  intros c a r Ha [->|[t ->]].
  - rewrite app_nil_r_s. exists []. now apply split_on_no_char.
  - exists (split_on c t). now apply split_on_app_char.
Qed.

Lemma until_stop : forall c a r, has_char c a = false -> stops c r -> until c (a ++ r) = a.
Proof. intros c a r Ha Hr. unfold until. destruct (split_stop c a r Ha Hr) as [t ->]. reflexivity. Qed.

Lemma word_next : forall k a r, has_char " " a = false -> word (S k) (a ++ " " ++ r) = word k r.
Proof.
  intros k a r Ha. unfold word. change (a ++ " " ++ r) with (a ++ String " " r).
  rewrite split_on_app_char by exact Ha. reflexivity.
Qed.

Lemma word_0 : forall a r, has_char " " a = false -> stops " " r -> word 0 (a ++ r) = a.
Proof. intros a r Ha Hr. unfold word. destruct (split_stop " " a r Ha Hr) as [t ->]. reflexivity. Qed.

Lemma split_on_app_last : forall c a b, has_char c b = false ->
  exists h l, split_on c (a ++ String c b) = h :: l +++ [b].
Proof.
  intros c a b Hb. induction a as [|x a [h [l IH]]].
  - cbn [append split_on]. rewrite Ascii.eqb_refl, split_on_no_char by exact Hb. exists "", []. reflexivity.
  - cbn [append split_on]. rewrite IH. destruct (Ascii.eqb x c).
    + exists "", (h :: l). reflexivity.
    + exists (String x h), l. reflexivity.
Qed.

Lemma last_word_app : forall a b, has_char " " b = false -> last_word (a ++ " " ++ b) = b.
Proof.
  intros a b Hb. unfold last_word. change (a ++ " " ++ b) with (a ++ String " " b).
  destruct (split_on_app_last " " a b Hb) as [h [l ->]]. rewrite app_comm_cons. apply last_last.
Qed.

(** An identifier that can be read back. *)
Definition clean_ident (s : string) : Prop :=
  has_char " " s = false /\ has_char "009" s = false /\ has_char "[" s = false /\ has_char ";" s = false.

Lemma prefix_app : forall p s, prefix p (p ++ s) = true.
Proof.
  induction p as [|a p IH]; intros s; [now destruct s|]. cbn [append prefix].
  destruct (ascii_dec a a); [apply IH | congruence].
Qed.

Lemma until_whole : forall c id, has_char c id = false -> until c id = id.
Proof.
  intros c id H. pose proof (until_stop c id "" H (or_introl eq_refl)) as U. now rewrite app_nil_r_s in U.
Qed.

Lemma go_declares : forall ns id r ms, clean_ident id -> stops " " r \/ stops "009" r -> 
  declares Go (mkItem ns ("type " ++ id ++ r) ms) = [id].
Proof.
  intros ns id r ms [H1 [H2 _]] Hr. unfold declares. cbn [head]. rewrite prefix_app. f_equal.
  change ("type " ++ id ++ r) with ("type" ++ " " ++ id ++ r). rewrite word_next by reflexivity.
  destruct Hr as [Hr|[->|[t ->]]].
  - rewrite word_0 by assumption. now apply until_whole.
  - rewrite word_0; [|exact H1 | now left]. now apply until_whole.
  - unfold word. rewrite split_on_prepend by exact H1. cbn [split_on]. 
    destruct (split_on " " t) as [|h u] eqn:Ht; cbn [Ascii.eqb Bool.eqb];
      [now apply split_on_nonempty in Ht|]. cbn [nth]. apply until_stop; [exact H2|]. right. now eexists.
Qed.

Lemma word2_declares : forall (p : string) w ns id r ms l, clean_ident id -> stops " " r ->
  (forall it, declares l it = if prefix p (head it) then [word 2 (head it)] else []) ->
  has_char " " w = false ->
  forall rest, rest = "" \/ rest = w ++ " " -> forall q, has_char " " q = false -> p ++ rest = q ++ " " ++ w ++ " " ->
  declares l (mkItem ns (p ++ rest ++ id ++ r) ms) = [id].
Proof.
  intros p w ns id r ms l [H1 _] Hr Hl Hw rest Hrest q Hq Hp. rewrite Hl. cbn [head]. rewrite prefix_app. f_equal.
  rewrite <- app_assoc_s, Hp. rewrite !app_assoc_s. rewrite word_next by exact Hq. rewrite word_next by exact Hw.
  now apply word_0.
Qed.

Lemma java_declares : forall ns id r ms, clean_ident id -> stops " " r ->
  declares Java (mkItem ns ("public class " ++ id ++ r) ms) = [id].
Proof.
  intros ns id r ms Hid Hr.
  apply (word2_declares "public class " "class" ns id r ms Java Hid Hr (fun _ => eq_refl) eq_refl "" (or_introl eq_refl)
    "public" eq_refl eq_refl).
Qed.

Lemma rust_declares : forall ns id r ms, clean_ident id -> stops " " r ->
  declares Rust (mkItem ns ("pub struct " ++ id ++ r) ms) = [id].
Proof.
  intros ns id r ms Hid Hr.
  apply (word2_declares "pub struct " "struct" ns id r ms Rust Hid Hr (fun _ => eq_refl) eq_refl "" (or_introl eq_refl)
    "pub" eq_refl eq_refl).
Qed.

Lemma ts_declares : forall w ns id r ms, clean_ident id -> stops " " r -> has_char " " w = false ->
  declares TypeScript (mkItem ns ("export " ++ w ++ " " ++ id ++ r) ms) = [id].
Proof.
  intros w ns id r ms Hid Hr Hw.
  rewrite <- (app_assoc_s w " " (id ++ r)).
  apply (word2_declares "export " w ns id r ms TypeScript Hid Hr (fun _ => eq_refl) Hw (w ++ " ") (or_intror eq_refl)
    "export" eq_refl eq_refl).
Qed.

Lemma not_struct_line : forall s, s ++ ";" <> "typedef struct {".
Proof. intros s H. do 20 (destruct s as [|? s]; [discriminate H|]; try discriminate H; injection H as ? H). Qed.

Lemma c_declares : forall ns a id br ms, clean_ident id -> br = "" \/ br = "[]" ->
  declares C (mkItem ns (a ++ " " ++ id ++ br ++ ";") ms) = [id].
Proof.
  intros ns a id br ms [H1 [_ [H3 H4]]] Hbr. unfold declares. cbn [head].
  assert (Heq : a ++ " " ++ id ++ br ++ ";" = (a ++ " " ++ id ++ br) ++ ";") by now rewrite !app_assoc_s.
  destruct (string_dec (a ++ " " ++ id ++ br ++ ";") "typedef struct {") as [H|_].
  { rewrite Heq in H. now apply not_struct_line in H. }
  f_equal. rewrite last_word_app.
  - replace (id ++ br ++ ";") with ((id ++ br) ++ ";") by now rewrite app_assoc_s.
    rewrite until_stop.
    + destruct Hbr as [->| ->].
      * rewrite until_stop; [reflexivity | exact H3 | now left].
      * rewrite until_stop; [reflexivity | exact H3 | right; now eexists].
    + rewrite has_char_app, H4. destruct Hbr as [->| ->]; reflexivity.
    + right. now eexists.
  - rewrite !has_char_app, H1. destruct Hbr as [->| ->]; reflexivity.
Qed.

Lemma c_declarator_shape : forall t name plural, exists a br, (br = "" \/ br = "[]") /\
  c_declarator t name plural = a ++ " " ++ name ++ br.
Proof.
  intros t name plural. unfold c_declarator. destruct (strip_suffix t "[]") as [u|].
  - exists u, "[]". auto.
  - exists t, (when plural "[]"). split; [destruct plural; auto | reflexivity].
Qed.

Lemma c_declarator_declares : forall ns t name plural ms, clean_ident name ->
  declares C (mkItem ns ("typedef " ++ c_declarator t name plural ++ ";") ms) = [name].
Proof.
  intros ns t name plural ms H. destruct (c_declarator_shape t name plural) as [a [br [Hbr ->]]].
  replace ("typedef " ++ (a ++ " " ++ name ++ br) ++ ";") with (("typedef " ++ a) ++ " " ++ name ++ br ++ ";")
    by now rewrite !app_assoc_s.
  now apply c_declares.
Qed.

Lemma c_end_declares : forall id, clean_ident id -> declares C (mkItem [] ("} " ++ id ++ ";") []) = [id].
Proof.
  intros id H. change ("} " ++ id ++ ";") with ("}" ++ " " ++ id ++ "" ++ ";"). apply c_declares; auto.
Qed.

Lemma c_list_declares : forall ns a id ms, clean_ident id ->
  declares C (mkItem ns ("typedef " ++ a ++ " " ++ id ++ "[];") ms) = [id].
Proof.
  intros ns a id ms H. assert (Heq : "typedef " ++ a ++ " " ++ id ++ "[];" = ("typedef " ++ a) ++ " " ++ id ++ "[]" ++ ";")
    by now rewrite !app_assoc_s. rewrite Heq. apply c_declares; auto.
Qed.

Lemma stops_space : forall s, stops " " (" " ++ s).
Proof. intros s. right. now exists s. Qed.

Lemma one_declares : forall l it x, declares l it = [x] -> flat_map (declares l) [it] = [x].
Proof. intros l it x H. cbn [flat_map]. now rewrite H. Qed.

Lemma go_alias_declares : forall id doc r, clean_ident id -> stops " " r \/ stops "009" r ->
  flat_map (declares Go) (go_alias id doc r) = [id].
Proof. intros id doc r H Hr. apply one_declares. now apply go_declares. Qed.

Lemma go_struct_declares : forall id doc ms, clean_ident id -> flat_map (declares Go) (go_struct id doc ms) = [id].
Proof.
  intros id doc ms H. unfold go_struct. cbn [flat_map].
  rewrite (go_declares _ id " struct {") by (auto; left; apply stops_space). reflexivity.
Qed.

Lemma stops_tab : forall s, stops "009" (TAB ++ s).
Proof. intros s. right. now exists s. Qed.

Lemma go_items_declare : forall pt p e id n, proto_name p = Some n -> clean_ident id -> clean_ident (plain_ident Go p) ->
  flat_map (declares Go) (items_of Go pt p e id) = [decl_ident Go p id].
Proof.
  intros pt p e id n Hn Hid Hpl. unfold items_of, decl_ident.
  destruct p as [|v|v|v|v|v|v]; [discriminate|..]; unfold go_items.
  - destruct (st_list v); [apply go_alias_declares; [exact Hid | left; right; now eexists]|].
    destruct (is_union v); [apply go_struct_declares, Hid | apply go_alias_declares; [exact Hid | left; apply stops_space]].
  - apply go_struct_declares, Hid.
  - apply go_alias_declares; [exact Hid | right; apply stops_tab].
  - apply go_alias_declares; [exact Hid | right; apply stops_tab].
  - apply go_struct_declares, Hid.
  - apply go_struct_declares, Hid.
Qed.

Lemma c_struct_declares : forall id doc ms, clean_ident id -> flat_map (declares C) (c_struct id doc ms) = [id].
Proof.
  intros id doc ms H. unfold c_struct. cbn [flat_map]. rewrite c_end_declares by exact H. reflexivity.
Qed.

Lemma c_items_declare : forall pt p e id n, proto_name p = Some n -> clean_ident id -> clean_ident (plain_ident C p) ->
  flat_map (declares C) (items_of C pt p e id) = [decl_ident C p id].
Proof.
  intros pt p e id n Hn Hid Hpl. unfold items_of, decl_ident.
  destruct p as [|v|v|v|v|v|v]; [discriminate|..]; unfold c_items.
  - destruct (st_list v); unfold negb, andb.
    + apply one_declares, c_list_declares, Hpl.
    + destruct (is_union v); [apply c_struct_declares, Hid | apply one_declares, c_declarator_declares, Hpl].
  - apply c_struct_declares, Hid.
  - apply one_declares, c_declarator_declares, Hid.
  - apply one_declares, c_declarator_declares, Hpl.
  - apply c_struct_declares, Hid.
  - apply c_struct_declares, Hid.
Qed.

Lemma java_items_declare : forall pt p e id n, proto_name p = Some n -> clean_ident id -> clean_ident (plain_ident Java p) ->
  flat_map (declares Java) (items_of Java pt p e id) = [decl_ident Java p id].
Proof.
  intros pt p e id n Hn Hid Hpl. cbn [items_of decl_ident].
  assert (Hcl : forall ns ext ms, stops " " (ext ++ " {") -> flat_map (declares Java) (j_class ns id ext ms) = [id]).
    { intros ns ext ms Hext. unfold j_class. cbn [flat_map]. rewrite java_declares by assumption. reflexivity. }
    assert (Hwr : forall ns a b f, flat_map (declares Java) (j_wrapper ns a b id f) = [id]).
    { intros ns a b f. unfold j_wrapper. cbn [flat_map]. rewrite Hcl by apply (stops_space "{"). reflexivity. }
    destruct p as [|v|v|v|v|v|v]; [discriminate|..]; cbn [java_items]; try apply Hwr; try (apply Hcl, (stops_space "{")).
    + destruct (st_list v); [apply Hwr|]. destruct (is_union v); [apply Hcl, (stops_space "{") | apply Hwr].
    + apply Hcl. destruct (builtin Java (ct_base v)); [apply (stops_space "{")|].
      destruct (ct_base v); [apply (stops_space "{")|]. right. now eexists.
Qed.

Lemma rust_items_declare : forall pt p e id n, proto_name p = Some n -> clean_ident id -> clean_ident (plain_ident Rust p) ->
  flat_map (declares Rust) (items_of Rust pt p e id) = [decl_ident Rust p id].
Proof.
  intros pt p e id n Hn Hid Hpl. cbn [items_of decl_ident].
  assert (Hst : forall ns ms, flat_map (declares Rust) (r_struct ns id ms) = [id]).
    { intros ns ms. unfold r_struct. cbn [flat_map]. rewrite rust_declares; [reflexivity | exact Hid | apply (stops_space "{")]. }
    destruct p as [|v|v|v|v|v|v]; [discriminate|..]; cbn [rust_items]; try apply Hst.
    destruct (st_list v); [apply Hst|]. destruct (is_union v); apply Hst.
Qed.

Lemma ts_items_declare : forall pt p e id n, proto_name p = Some n -> clean_ident id -> clean_ident (plain_ident TypeScript p) ->
  flat_map (declares TypeScript) (items_of TypeScript pt p e id) = [decl_ident TypeScript p id].
Proof.
  intros pt p e id n Hn Hid Hpl. cbn [items_of decl_ident].
  assert (Hcl : forall doc ext ms, stops " " (ext ++ " {") -> flat_map (declares TypeScript) (t_class id doc ext ms) = [id]).
    { intros doc ext ms Hext. unfold t_class. cbn [flat_map].
      rewrite (ts_declares "class" _ id (ext ++ " {")) by auto. reflexivity. }
    assert (Hal : forall doc t, flat_map (declares TypeScript) (t_alias id doc t) = [id]).
    { intros doc t. unfold t_alias. cbn [flat_map].
      rewrite (ts_declares "type" _ id (" = " ++ t ++ ";")); [reflexivity | exact Hid | apply stops_space | reflexivity]. }
    destruct p as [|v|v|v|v|v|v]; [discriminate|..]; cbn [ts_items]; try apply Hal; try (apply Hcl, (stops_space "{")).
    + destruct e.
      * cbn [flat_map].
        rewrite (ts_declares "enum" _ id " {"); [reflexivity | exact Hid | apply stops_space | reflexivity].
      * destruct (st_list v); [apply Hal|]. destruct (is_union v); [apply Hcl, (stops_space "{") | apply Hal].
    + apply Hcl. destruct (builtin TypeScript (ct_base v)); [apply (stops_space "{")|].
      destruct (ct_base v); [apply (stops_space "{")|]. right. now eexists.
Qed.

Lemma items_declare : forall l pt p e id n, proto_name p = Some n -> clean_ident id -> clean_ident (plain_ident l p) ->
  flat_map (declares l) (items_of l pt p e id) = [decl_ident l p id].
Proof.
  intros [] pt p e id n; [apply go_items_declare | apply c_items_declare | apply java_items_declare | apply rust_items_declare
    | apply ts_items_declare].
Qed.

(** ** Clean names make clean identifiers *)

Hypothesis tables : case_tables_ok.

Lemma mark_of : forall c, (N_of_ascii c < 128)%N -> ~ ascii_letter (N_of_ascii c) -> c <> "_"%char -> mark c.
Proof. intros c H1 H2 H3. repeat split; assumption. Qed.

Lemma clean_plain : forall l p n, proto_name p = Some n -> plain_name n -> clean_ident (plain_ident l p).
Proof.
  intros l p n Hn [H1 [H2 [H3 H4]]]. apply free_of_has_char in H1, H2, H3, H4.
  assert (Hc : forall c, mark c -> has_char c n = false -> has_char c (plain_ident l p) = false).
  { intros c Hc H. rewrite plain_ident_eq. unfold GenText.plain_ident. rewrite Hn.
    destruct (names_mark tables c Hc n H) as [A1 [A2 [A3 [A4 [A5 A6]]]]].
    destruct l; try assumption. destruct p; assumption. }
  repeat split; apply Hc; auto; apply mark_of; try (vm_compute; congruence); unfold ascii_letter.
  - change (N_of_ascii " ") with 32%N. lia.
  - change (N_of_ascii "009") with 9%N. lia.
  - change (N_of_ascii "[") with 91%N. lia.
  - change (N_of_ascii ";") with 59%N. lia.
Qed.

Lemma clean_numbered : forall n k, clean_ident n -> clean_ident (numbered n k).
Proof.
  intros n k H. unfold numbered. destruct (Nat.eqb k 1); [exact H|]. destruct H as [H1 [H2 [H3 H4]]].
  unfold clean_ident. rewrite !has_char_app, H1, H2, H3, H4. cbn [orb].
  repeat split; (apply (all_bytes_free is_digit); [reflexivity | apply itoa_digits]).
Qed.

Lemma identifiers_declared : forall l pt ps used,
  Forall (fun x => exists n, proto_name (fst x) = Some n /\ plain_name n) ps ->
  flat_map (declares l) (concat (map (fun x => items_of l pt (fst (fst x)) (snd (fst x)) (snd x))
      (combine ps (identifiers l used (map fst ps))))) =
  map (fun x => decl_ident l (fst (fst x)) (snd x)) (combine ps (identifiers l used (map fst ps))).
Proof.
  intros l pt. induction ps as [|[p e] ps IH]; intros used H; [reflexivity|].
  inversion H as [|? ? [n [Hn Hp]] Hps]; subst. cbn [fst] in Hn. cbn [map fst identifiers].
  pose proof (clean_plain l p n Hn Hp) as Hc.
  destruct (counting l p); cbn [combine map concat fst snd]; rewrite flat_map_app, IH by exact Hps;
    rewrite (items_declare l pt p e _ n Hn); auto using clean_numbered.
Qed.

Lemma rendered_named : forall l tree seen x, In x (rendered l seen tree) -> In (fst x) tree /\ exists n, proto_name (fst x) = Some n.
Proof.
  intros l. induction tree as [|q tree IH]; intros seen x Hx; cbn [rendered] in Hx; [contradiction|].
  assert (Hrec : forall seen', In x (rendered l seen' tree) -> In (fst x) (q :: tree) /\ exists n, proto_name (fst x) = Some n).
  { intros seen' H. destruct (IH seen' x H). split; [now right | assumption]. }
  destruct (proto_name q) as [n|] eqn:Hn; [|eauto].
  destruct (in_dec string_dec n seen).
  - destruct (enumerated l q); [|eauto]. destruct Hx as [<-|Hx]; [|eauto]. split; [now left | now exists n].
  - destruct (enumerated l q && negb (listed q)); (destruct Hx as [<-|Hx]; [|eauto]); (split; [now left | now exists n]).
Qed.

(** The identifiers that the text declares. *)
Theorem declared_identifiers : forall l pt, tree_ok pt -> tree_plain pt ->
  exists its, outline (g_field (run_entries (entry_of l) pt)) = Some its /\
    flat_map (declares l) its =
    map (fun x => decl_ident l (fst (fst x)) (snd x))
      (combine (rendered l [] pt) (identifiers l [] (map fst (rendered l [] pt)))).
Proof.
  intros l pt Hok Hpl. exists (expected l pt). split; [now apply outline_of_run|].
  apply identifiers_declared. apply Forall_forall. intros x Hx. apply rendered_named in Hx as [Hx [n Hn]].
  exists n. split; [exact Hn|]. unfold tree_plain in Hpl. rewrite Forall_forall in Hpl.
  specialize (Hpl _ Hx). now rewrite Hn in Hpl.
Qed.

(** Pairwise different plain identifiers: the text declares exactly them. *)
Lemma decl_plain : forall l (ps : list (proto * bool)),
  map (fun x => decl_ident l (fst (fst x)) (snd x)) (combine ps (map (plain_ident l) (map fst ps))) =
  map (plain_ident l) (map fst ps).
Proof.
  intros l. induction ps as [|[p e] ps IH]; [reflexivity|]. cbn [map fst combine snd]. rewrite IH. f_equal.
  destruct l, p; cbn [decl_ident]; try reflexivity. now destruct (negb (st_list v) && is_union v).
Qed.

Theorem distinct_identifiers : forall l pt, tree_ok pt -> tree_plain pt ->
  NoDup (map (plain_ident l) (map fst (rendered l [] pt))) ->
  exists its, outline (g_field (run_entries (entry_of l) pt)) = Some its /\
    flat_map (declares l) its = map (plain_ident l) (map fst (rendered l [] pt)) /\ NoDup (flat_map (declares l) its).
Proof.
  intros l pt Hok Hpl Hd. destruct (declared_identifiers l pt Hok Hpl) as [its [Ho Hf]]. exists its.
  rewrite identifiers_plain in Hf by (auto; intros n _ []). rewrite decl_plain in Hf.
  split; [exact Ho|]. rewrite Hf. now split.
Qed.

Lemma decl_tagged : forall l (ps : list (proto * bool)) ids, Forall (fun x => tagged l (fst x) = true) ps ->
  length ids = length ps ->
  map (fun x => decl_ident l (fst (fst x)) (snd x)) (combine ps ids) = ids.
Proof.
  intros l. induction ps as [|[p e] ps IH]; intros [|i ids] H Hlen; try discriminate; [reflexivity|].
  inversion H as [|? ? Hp Hps]; subst. cbn [combine map fst snd]. rewrite IH; [|exact Hps | now injection Hlen].
  f_equal. cbn [fst] in Hp. unfold tagged in Hp. apply andb_true_iff in Hp as [_ Hp].
  destruct l, p; cbn [decl_ident]; try reflexivity; try discriminate. now rewrite Hp.
Qed.

Theorem numbered_identifiers : forall l pt, tree_ok pt -> tree_plain pt ->
  Forall (fun x => tagged l (fst x) = true) (rendered l [] pt) ->
  Forall (fun x => ~ ends_in_digit (plain_ident l (fst x))) (rendered l [] pt) ->
  exists its, outline (g_field (run_entries (entry_of l) pt)) = Some its /\ NoDup (flat_map (declares l) its).
Proof.
  intros l pt Hok Hpl Ht Hd. destruct (declared_identifiers l pt Hok Hpl) as [its [Ho Hf]]. exists its.
  split; [exact Ho|]. rewrite Hf, decl_tagged; [|exact Ht | now rewrite identifiers_length, map_length].
  apply identifiers_numbered.
  - apply Forall_forall. intros p Hp. apply in_map_iff in Hp as [x [<- Hx]]. rewrite Forall_forall in Ht.
    specialize (Ht x Hx). unfold tagged in Ht. now apply andb_true_iff in Ht as [Ht _].
  - apply Forall_forall. intros p Hp. apply in_map_iff in Hp as [x [<- Hx]]. rewrite Forall_forall in Hd. auto.
Qed.

End Facts.
