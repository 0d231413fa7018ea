(** Proofs for C66: given trees. *)

From Coq Require Import String Ascii List NArith Bool Lia.
From Verif Require Import GoStr Utf8 Base Utils SpecStr SpecTables SpecGen SpecOut SpecSyntax SpecClosed
  StrLemmas StrProofs GenLemmas GenOutline DocLemmas SyntaxProofs SyntaxDecls SyntaxCheck ClosedProofs.
Import ListNotations.
Local Open Scope string_scope.

Definition has_name (t : string) (p : proto) : bool := match proto_name p with Some n => String.eqb n t | None => false end.
Definition smallb (l : lang) (p : proto) : bool := match l, p with Rust, PElement _ | Rust, PAttribute _ => true | _, _ => false end.
Definition poolb (pt : list proto) (l : lang) (t : string) : bool :=
  all_bytes (fun a => (N_of_ascii a <? 128)%N) t && match find (has_name t) pt with Some p => negb (smallb l p) | None => false end.

Lemma find_first : forall t pt p, find (has_name t) pt = Some p -> first_of p pt /\ proto_name p = Some t.
Proof.
  intros t pt p. induction pt as [|q pt IH]; [discriminate|]. cbn [find]. unfold has_name at 1. destruct (proto_name q) as [n|] eqn:Hn.
  - destruct (String.eqb_spec n t) as [->|Hne].
    + intros [= <-]. split; [|exact Hn]. exists [], pt, t. split; [reflexivity|]. split; [exact Hn | intros x []].
    + intros H. destruct (IH H) as [[pre [post [m [-> [Hm Hpre]]]]] Hp]. split; [|exact Hp]. exists (q :: pre), post, m.
      split; [reflexivity|]. split; [exact Hm|]. intros x [<-|Hx]; [|now apply Hpre]. rewrite Hn. congruence.
  - intros H. destruct (IH H) as [[pre [post [m [-> [Hm Hpre]]]]] Hp]. split; [|exact Hp]. exists (q :: pre), post, m.
    split; [reflexivity|]. split; [exact Hm|]. intros x [<-|Hx]; [|now apply Hpre]. rewrite Hn. congruence.
Qed.

Lemma poolb_ok : forall pt l t, poolb pt l t = true -> components pt l t.
Proof.
  intros pt l t H. apply andb_true_iff in H as [Ha H]. split; [now apply ascii_well_formed|].
  destruct (find (has_name t) pt) as [p|] eqn:Hf; [|discriminate]. apply find_first in Hf as [H1 H2]. exists p. split; [exact H1|]. split; [exact H2|].
  destruct l, p; cbn in *; try (intros Hx; exact Hx); discriminate.
Qed.

Lemma closed_check : forall {E : Env} l pt, forallb (fineb (poolb pt) l) pt = true -> forallb (manageb l pt) pt = true ->
  tree_fine (P := components pt) l pt /\ Forall (manageable l pt) pt.
Proof. intros E l pt. apply (check_ok (P := components pt) (poolb pt)). apply poolb_ok. Qed.

(** * Programs that are not closed *)

Lemma no_declarations : forall (S : Scope) l ds, concat (map snd ds) = [] -> Forall (fun d => declaration l (fst d) (snd d)) ds -> ds = [].
Proof.
  intros S l [|[i d] ds] He H; [reflexivity|]. inversion H; subst. cbn [map snd concat fst] in *. apply app_eq_nil in He as [He _].
  now apply declaration_nonempty in H2.
Qed.

Lemma closed_first : forall std l it r, closed_program std l (it :: r) -> exists i d ds, r = (d ++ concat (map snd ds))%list /\
  declaration (S := in_scope l std (i :: map fst ds)) l i (it :: d) /\
  Forall (fun x => declaration (S := in_scope l std (i :: map fst ds)) l (fst x) (snd x)) ds.
Proof.
  intros std l it r [[|[i d] ds] [He H]]; [discriminate|]. inversion H; subst. cbn [map fst snd concat] in *.
  destruct d as [|x d]; [now apply declaration_nonempty in H2|]. cbn [app] in He. injection He as -> ->. now exists i, d, ds.
Qed.

Lemma ident_first : forall c s, ident (String c s) -> letter c = true.
Proof. intros c s [a [r [[= <- <-] [H _]]]]. exact H. Qed.

Section Shapes.
Context {S : Scope}.

Lemma go_one : forall l i d it, declaration l i d -> l = Go -> d = [it] ->
  exists gap t, head it = "type " ++ i ++ gap ++ t /\ identifier Go i /\ typing Go t /\ In gap [" "; TAB].
Proof. intros l i d it H. destruct H; intros Hl He; try discriminate; injection He as <-. now exists gap, t. Qed.

Lemma go_name_known : forall l s, typing l s -> l = Go -> s = "Y" -> known Go "Y".
Proof.
  intros l s H. destruct H; intros Hl He; try discriminate; subst; [assumption|].
  apply (f_equal (has_char ".")) in He. rewrite !has_char_app, orb_true_r in He. discriminate.
Qed.

Lemma go_pointer_known : forall l s, typing l s -> l = Go -> s = "*Y" -> known Go "Y".
Proof.
  intros l s H. destruct H; intros Hl He; try discriminate; subst.
  - destruct H as [H _]. apply ident_first in H. discriminate.
  - apply (f_equal (has_char ".")) in He. rewrite !has_char_app, orb_true_r in He. discriminate.
  - injection He as ->. now apply (go_name_known Go "Y").
Qed.

Lemma c_one : forall l i d it, declaration l i d -> l = C -> d = [it] ->
  exists t more, head it = "typedef " ++ t ++ " " ++ i ++ more /\ identifier C i /\ typing C t /\ In more [";"; "[];"].
Proof.
  intros l i d it H. destruct H; intros Hl He; try discriminate; injection He as <-; [exists t, ";" | exists t, "[];"];
    (split; [reflexivity|]; split; [assumption|]; split; [assumption|]; cbn; tauto).
Qed.

Lemma c_known : forall l t, typing l t -> l = C -> has_char " " t = false -> In t ["char"; "short"; "int"; "long"; "float"; "double"; "void"] \/ known C t.
Proof.
  intros l t H. destruct H; intros Hl Hs; try discriminate; subst; [now right|]. left.
  cbn in H. repeat (destruct H as [<-|H]; [try discriminate Hs; cbn; tauto|]). destruct H.
Qed.

Lemma java_class : forall l i d it x, declaration l i d -> l = Java -> d = it :: x -> rows it <> [] ->
  x = [mkItem [] "}" []] /\ members Java (rows it) /\ identifier Java i /\ exists more, head it = "public class " ++ i ++ " " ++ more.
Proof.
  intros l i d it x H. destruct H; intros Hl He Hr; try discriminate; injection He as <- <-; try (now elim Hr);
    (split; [reflexivity|]; split; [assumption|]; split; [assumption|]).
  - now exists "{".
  - exists ("extends " ++ t ++ "  {"). cbn [head]. reflexivity.
Qed.

Lemma java_name_known : forall l t, typing l t -> l = Java -> t = "StringAttr" -> known Java t.
Proof. intros l t H. destruct H; intros Hl He; try discriminate; subst; assumption. Qed.

Lemma rust_struct : forall l i d a x, declaration l i d -> l = Rust -> d = a :: x ->
  exists ms, x = [mkItem [] ("pub struct " ++ i ++ " {") ms; mkItem [] "}" []] /\ members Rust ms /\ identifier Rust i.
Proof. intros l i d a x H. destruct H; intros Hl He; try discriminate; injection He as <- <-. now exists ms. Qed.

Lemma rust_field : forall l m, member l m -> l = Rust -> exists t i, m = "pub " ++ i ++ ": " ++ t ++ "," /\ typing Rust t /\ identifier Rust i.
Proof. intros l m H. destruct H; intros Hl; try discriminate. now exists t, i. Qed.

Lemma rust_name_known : forall l t, typing l t -> l = Rust -> t = "X" -> known Rust t.
Proof. intros l t H. destruct H; intros Hl He; try discriminate; subst; assumption. Qed.

End Shapes.

(** An identifier in front of a character that cannot be part of one. *)
Lemma ident_end : forall i c rest j d s, ident i -> ident j -> ident_char c = false -> ident_char d = false ->
  i ++ String c rest = j ++ String d s -> i = j /\ String c rest = String d s.
Proof.
  intros i c rest j d s [a [r [-> [_ Hr]]]] [b [q [-> [_ Hq]]]] Hc Hd H. cbn in H. injection H as -> H.
  revert q Hq H. induction r as [|x r IH]; intros [|y q] Hq H; cbn in *.
  - now split.
  - injection H as -> H. destruct Hq. congruence.
  - injection H as -> H. destruct Hr. congruence.
  - injection H as -> H. destruct Hr, Hq. destruct (IH ltac:(assumption) q ltac:(assumption) H) as [He ->]. injection He as ->. now split.
Qed.

Lemma space_split : forall a b c d, has_char " " b = false -> has_char " " d = false -> a ++ " " ++ b = c ++ " " ++ d -> a = c /\ b = d.
Proof.
  induction a as [|x a IH]; intros b [|y c] d Hb Hd H; cbn in H.
  - injection H as ->. now split.
  - injection H as <- H. subst b. rewrite has_char_app in Hb. cbn in Hb. destruct (has_char " " c); discriminate.
  - injection H as -> H. subst d. rewrite has_char_app in Hd. cbn in Hd. destruct (has_char " " a); discriminate.
  - injection H as -> H. destruct (IH b c d Hb Hd H) as [-> ->]. now split.
Qed.

Lemma space_first : forall a b c d, has_char " " a = false -> has_char " " c = false -> a ++ " " ++ b = c ++ " " ++ d -> a = c.
Proof.
  induction a as [|x a IH]; intros b [|y c] d Ha Hc H; cbn in H, Ha, Hc; [reflexivity | | |].
  - injection H as <- _. discriminate.
  - injection H as -> _. discriminate.
  - injection H as -> H. apply orb_false_iff in Ha as [_ Ha], Hc as [_ Hc]. f_equal. exact (IH b c d Ha Hc H).
Qed.

Lemma no_space : forall i, ident i -> has_char " " i = false.
Proof. intros i [a [r [-> [Ha Hr]]]]. apply (every_free ident_char); [|reflexivity]. cbn. split; [now apply letter_ident | exact Hr]. Qed.

Lemma go_undeclared : forall ns, ~ closed_program (standard Go) Go [mkItem ns ("type X" ++ TAB ++ "*Y") []].
Proof.
  intros ns H. apply closed_first in H as [i [d [ds [He [Hd Hr]]]]]. symmetry in He. apply app_eq_nil in He as [-> He].
  apply no_declarations in Hr; [|exact He]. subst ds. cbn [map] in Hd.
  destruct (go_one _ _ _ _ Hd eq_refl eq_refl) as [gap [t [Hh [[Hi _] [Ht Hg]]]]]. cbn [head] in Hh. cbn [append] in Hh. injection Hh as Hh.
  assert (Hx : i = "X" /\ t = "*Y").
  { cbn in Hg. destruct Hg as [<-|[<-|[]]]; symmetry in Hh.
    - destruct (ident_end i " " t "X" "009" "*Y" Hi ltac:(apply ident_check; reflexivity) eq_refl eq_refl Hh) as [_ H]. discriminate.
    - destruct (ident_end i "009" t "X" "009" "*Y" Hi ltac:(apply ident_check; reflexivity) eq_refl eq_refl Hh) as [-> H]. injection H as ->. now split. }
  destruct Hx as [-> ->]. pose proof (go_pointer_known Go _ Ht eq_refl eq_refl) as Hk. cbv in Hk. specialize (Hk eq_refl).
  repeat (destruct Hk as [Hk|Hk]; try discriminate Hk; try contradiction).
Qed.

Lemma c_bool : forall ns, ~ closed_program (predeclared C) C [mkItem ns "typedef bool X;" []].
Proof.
  intros ns H. apply closed_first in H as [i [d [ds [He [Hd Hr]]]]]. symmetry in He. apply app_eq_nil in He as [-> He].
  apply no_declarations in Hr; [|exact He]. subst ds. cbn [map] in Hd.
  destruct (c_one _ _ _ _ Hd eq_refl eq_refl) as [t [more [Hh [[Hi _] [Ht Hm]]]]]. cbn [head] in Hh. cbn [append] in Hh. injection Hh as Hh.
  assert (Hs : has_char " " (i ++ more) = false).
  { rewrite has_char_app, (no_space i Hi). cbn in Hm. destruct Hm as [<-|[<-|[]]]; reflexivity. }
  destruct (space_split "bool" "X;" t (i ++ more) eq_refl Hs Hh) as [<- Hx].
  assert (Hn : i <> "bool") by (intros ->; discriminate).
  destruct (c_known C _ Ht eq_refl eq_refl) as [Hk|Hk].
  - cbn in Hk. repeat (destruct Hk as [Hk|Hk]; try discriminate Hk; try contradiction).
  - destruct (Hk eq_refl) as [[]|[Hk'|[]]]. contradiction.
Qed.

Lemma java_attr : forall ns a, ~ closed_program (standard Java) Java [mkItem ns "public class H {" [a; "protected StringAttr A;"]; mkItem [] "}" []].
Proof.
  intros ns a H. apply closed_first in H as [i [d [ds [He [Hd Hr]]]]].
  destruct (java_class _ _ _ _ _ Hd eq_refl eq_refl ltac:(discriminate)) as [-> [Hm [[Hi _] [more Hh]]]]. cbn [app] in He. injection He as He. symmetry in He.
  apply no_declarations in Hr; [|exact He]. subst ds. cbn [map] in *. cbn [head append] in Hh. injection Hh as Hh. symmetry in Hh.
  destruct (ident_end i " " more "H" " " "{" Hi ltac:(apply ident_check; reflexivity) eq_refl eq_refl Hh) as [-> _].
  assert (Hmem : member (S := in_scope Java (standard Java) ["H"]) Java "protected StringAttr A;").
  { cbn [rows] in Hm. inversion Hm as [|m r Hx Hy|x m r Hx Hy Hz]; subst; [|exact Hy]. inversion Hy as [|m r Hz Hw|x m r Hz Hw]; subst. exact Hz. }
  destruct (java_fields _ _ Hmem eq_refl) as [t [j [He' Ht]]]. cbn [append] in He'. injection He' as He'.
  assert (Hn : t = "StringAttr").
  { symmetry. apply (space_first "StringAttr" "A;" t (j ++ ";")); [reflexivity | exact (java_no_space Java t Ht eq_refl) | exact He']. }
  pose proof (java_name_known Java t Ht eq_refl Hn eq_refl) as Hk. subst t. cbn in Hk.
  repeat (destruct Hk as [Hk|Hk]; try discriminate Hk; try contradiction).
Qed.

Lemma rust_small : forall ns a h, ~ closed_program (standard Rust) Rust [mkItem ns h []; mkItem [] "pub struct x {" [a; "pub x: X,"]; mkItem [] "}" []].
Proof.
  intros ns a h H. apply closed_first in H as [i [d [ds [He [Hd Hr]]]]].
  destruct (rust_struct _ _ _ _ _ Hd eq_refl eq_refl) as [ms [-> [Hm [Hi _]]]]. cbn [app] in He. injection He as He <- Hx. symmetry in Hx.
  apply no_declarations in Hr; [|exact Hx]. subst ds. cbn [map] in *. cbn [append] in He. symmetry in He.
  destruct (ident_end i " " "{" "x" " " "{" Hi ltac:(apply ident_check; reflexivity) eq_refl eq_refl He) as [-> _].
  assert (Hmem : member (S := in_scope Rust (standard Rust) ["x"]) Rust "pub x: X,").
  { inversion Hm as [|m r Hx' Hy|x m r Hx' Hy Hz]; subst; [|exact Hy]. inversion Hy as [|m r Hz Hw|x m r Hz Hw]; subst. exact Hz. }
  destruct (rust_field _ _ Hmem eq_refl) as [t [j [He' [Ht [Hj _]]]]]. cbn [append] in He'. injection He' as He'. symmetry in He'.
  destruct (ident_end j ":" (" " ++ t ++ ",") "x" ":" " X," Hj ltac:(apply ident_check; reflexivity) eq_refl eq_refl He') as [_ Hw].
  cbn in Hw. injection Hw as Hw.
  assert (Hn : t = "X").
  { destruct t as [|c [|c' t]]; cbn in Hw; [discriminate | now injection Hw as -> | injection Hw as _ _ Hw; destruct t; discriminate]. }
  pose proof (rust_name_known Rust t Ht eq_refl Hn eq_refl) as Hk. subst t. cbn in Hk.
  repeat (destruct Hk as [Hk|Hk]; try discriminate Hk; try contradiction).
Qed.

Lemma and_assoc_1 : forall A B D : Prop, A /\ B /\ D <-> (A /\ B) /\ D.
Proof. tauto. Qed.
