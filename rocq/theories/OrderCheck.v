(** Proofs for C70: given trees. *)

From Coq Require Import String Ascii List NArith Bool Lia.
From Verif Require Import GoStr Utf8 Base Utils SpecStr SpecTables SpecGen SpecOut SpecSyntax SpecClosed SpecOrder
  StrLemmas StrProofs GenLemmas GenOutline SyntaxProofs SyntaxDecls SyntaxCheck ClosedProofs ClosedCheck OrderProofs.
Import ListNotations.
Local Open Scope string_scope.

Local Infix "+++" := app (at level 60, right associativity).

(** * Trees in order *)

Fixpoint orderedb {E : Env} (l : lang) (before pt : list proto) : bool :=
  match pt with
  | [] => true
  | p :: r => fineb (poolb before) l p && orderedb l (before +++ [p]) r
  end.

Lemma orderedb_ok : forall {E : Env} l pt before, orderedb l before pt = true -> forall pre p post, pt = pre +++ p :: post ->
  component_fine (P := components (before +++ pre)) l p.
Proof.
  intros E l. induction pt as [|q pt IH]; intros before H pre p post Hp; [destruct pre; discriminate|].
  cbn [orderedb] in H. apply andb_true_iff in H as [Hq H]. destruct pre as [|x pre]; injection Hp as <- Hp.
  - rewrite app_nil_r. exact (fineb_ok (P := components before) (poolb before) (poolb_ok before) l q Hq).
  - subst pt. replace (before +++ q :: pre) with ((before +++ [q]) +++ pre) by now rewrite <- app_assoc. now apply (IH _ H pre p post).
Qed.

Lemma order_check : forall {E : Env} l pt, orderedb l [] pt = true -> ordered_tree l pt.
Proof. intros E l pt H. exact (orderedb_ok l pt [] H). Qed.

Definition name_dec : forall a b : option string, {a = b} + {a <> b}.
Proof. decide equality. apply string_dec. Defined.

Fixpoint apart (ns : list (option string)) : bool :=
  match ns with
  | [] => true
  | n :: r => (if in_dec name_dec n r then false else true) && apart r
  end.

Definition namesb (l : lang) (pt : list proto) : bool :=
  apart (map proto_name pt) && forallb (fun t => negb (existsb (has_name t) pt)) (targets l).

Lemma apart_ok : forall ns, apart ns = true -> NoDup ns.
Proof.
  induction ns as [|n ns IH]; intros H; constructor; cbn [apart] in H; apply andb_true_iff in H as [H1 H2]; [|now apply IH].
  destruct (in_dec _ n ns); [discriminate | assumption].
Qed.

Lemma namesb_ok : forall l pt, namesb l pt = true -> own_names l pt.
Proof.
  intros l pt H. apply andb_true_iff in H as [H1 H2]. split; [now apply apart_ok|]. intros t Ht Hin.
  pose proof (proj1 (forallb_forall _ _) H2 t Ht) as Hx. apply negb_true_iff in Hx. apply in_map_iff in Hin as [p [Hp Hin]].
  assert (Hy : existsb (has_name t) pt = true); [|congruence]. apply existsb_exists. exists p. split; [exact Hin|]. unfold has_name. rewrite Hp. apply String.eqb_refl.
Qed.

Lemma ordered_check : forall {E : Env} l pt, orderedb l [] pt = true -> namesb l pt = true -> forallb (manageb l pt) pt = true ->
  ordered_tree l pt /\ own_names l pt /\ Forall (manageable l pt) pt.
Proof.
  intros E l pt H1 H2 H3. split; [now apply order_check|]. split; [now apply namesb_ok|].
  apply Forall_forall. intros p Hp. apply manageb_ok. exact (proj1 (forallb_forall _ _) H3 p Hp).
Qed.

(** * Programs out of order *)

Lemma ordered_first : forall std l it r, ordered_program std l (it :: r) -> exists i d, declaration (S := in_scope l std []) l i (it :: d).
Proof.
  intros std l it r [[|[i d] ds] [He H]]; [discriminate|]. pose proof (H [] (i, d) ds eq_refl) as Hd. cbn [map fst snd concat] in *.
  destruct d as [|x d]; [now apply declaration_nonempty in Hd|]. injection He as -> _. now exists i, d.
Qed.

Lemma c_struct_shape : forall (S : Scope) l i d it x, declaration l i d -> l = C -> d = it :: x -> head it = "typedef struct {" ->
  x = [mkItem [] ("} " ++ i ++ ";") []] /\ members C (rows it) /\ identifier C i.
Proof.
  intros S l i d it x H. destruct H; intros Hl He Hh; try discriminate; injection He as <- <-; cbn [head rows] in *; [split; [reflexivity | split; assumption]| |];
    apply (f_equal (has_char ";")) in Hh; cbn in Hh; rewrite has_char_app in Hh; cbn in Hh; rewrite has_char_app in Hh; cbn in Hh; rewrite !orb_true_r in Hh; discriminate.
Qed.

(** The type at the beginning of a type definition in C. *)
Lemma c_typedef : forall (S : Scope) i it d a b, declaration C i (it :: d) -> head it = "typedef " ++ a ++ " " ++ b ->
  has_char " " a = false -> has_char " " b = false -> has_char "{" b = false -> typing C a.
Proof.
  intros S i it d a b H Hh Ha Hb Hc. remember C as l eqn:Hl. remember (it :: d) as x eqn:Hx.
  destruct H; try discriminate; injection Hx as <- <-; cbn [head] in Hh; cbn [append] in Hh.
  - injection Hh as Hh. change "struct {" with ("struct" ++ " " ++ "{") in Hh.
    destruct (space_split "struct" "{" a b eq_refl Hb Hh) as [_ <-]. discriminate.
  - injection Hh as Hh. destruct (space_split t (i ++ ";") a b) as [<- _]; [|exact Hb|exact Hh | assumption].
    rewrite has_char_app, no_space by apply H. reflexivity.
  - injection Hh as Hh. destruct (space_split t (i ++ "[];") a b) as [<- _]; [|exact Hb|exact Hh | assumption].
    rewrite has_char_app, no_space by apply H. reflexivity.
Qed.

(** A type that is used in the first declaration. *)
Lemma c_use_first : forall ns r, ~ ordered_program (standard C) C (mkItem ns "typedef Other X;" [] :: r).
Proof.
  intros ns r H. apply ordered_first in H as [i [d H]].
  pose proof (c_typedef _ i _ d "Other" "X;" H eq_refl eq_refl eq_refl eq_refl) as Ht.
  destruct (c_known C _ Ht eq_refl eq_refl) as [Hk|Hk].
  - cbn in Hk. repeat (destruct Hk as [Hk|Hk]; try discriminate Hk; try contradiction).
  - destruct (Hk eq_refl) as [Hk'|[]]. cbn in Hk'. repeat (destruct Hk' as [Hk'|Hk']; try discriminate Hk'; try contradiction).
Qed.

(** The same after a declaration of another type. *)
Lemma c_use_second : forall ns ns' r,
  ~ ordered_program (standard C) C (mkItem ns "typedef struct {" [] :: mkItem [] "} A;" [] :: mkItem ns' "typedef Other X;" [] :: r).
Proof.
  intros ns ns' r [[|[i d] ds] [He H]]; [discriminate|]. pose proof (H [] (i, d) ds eq_refl) as Hd. cbn [map fst snd concat] in *.
  destruct d as [|x d]; [now apply declaration_nonempty in Hd|]. injection He as <- He.
  destruct (c_struct_shape _ C i _ _ d Hd eq_refl eq_refl eq_refl) as [-> [_ [Hi _]]]. cbn [app] in He. injection He as Hn He.
  symmetry in Hn. destruct (ident_end i ";" "" "A" ";" "" Hi ltac:(apply ident_check; reflexivity) eq_refl eq_refl Hn) as [-> _].
  destruct ds as [|[j e] ds]; [discriminate|]. pose proof (H [("A", mkItem ns "typedef struct {" [] :: [mkItem [] ("} " ++ "A" ++ ";") []])] (j, e) ds eq_refl) as Hj.
  cbn [map fst snd concat] in *. destruct e as [|y e]; [now apply declaration_nonempty in Hj|]. injection He as <- _.
  pose proof (c_typedef _ j _ e "Other" "X;" Hj eq_refl eq_refl eq_refl eq_refl) as Ht.
  destruct (c_known C _ Ht eq_refl eq_refl) as [Hk|Hk].
  - cbn in Hk. repeat (destruct Hk as [Hk|Hk]; try discriminate Hk; try contradiction).
  - destruct (Hk eq_refl) as [Hk'|[Hk'|[]]]; [|discriminate]. cbn in Hk'. repeat (destruct Hk' as [Hk'|Hk']; try discriminate Hk'; try contradiction).
Qed.

(** A structure that contains itself. *)
Lemma c_field : forall (S : Scope) l m, member l m -> l = C -> exists t rest, m = t ++ " " ++ rest /\ typing C t /\ exists i more, identifier C i /\ rest = i ++ more.
Proof.
  intros S l m H. destruct H; intros Hl; try discriminate.
  - exists t, (i ++ rest). split; [reflexivity|]. split; [assumption|]. now exists i, rest.
  - exists t, (i ++ "[]" ++ rest). split; [reflexivity|]. split; [assumption|]. now exists i, ("[]" ++ rest).
Qed.

Lemma c_recursive : forall ns r, ~ ordered_program (standard C) C (mkItem ns "typedef struct {" ["Node Next;"] :: r).
Proof.
  intros ns r H. apply ordered_first in H as [i [d H]]. destruct (c_struct_shape _ C i _ _ d H eq_refl eq_refl eq_refl) as [_ [Hm _]]. cbn [rows] in Hm.
  inversion Hm as [|m q Hx Hy|x m q Hx Hy Hz]; subst. destruct (c_field _ _ _ Hx eq_refl) as [t [rest [He [Ht _]]]].
  assert (Hs : has_char " " rest = false /\ t = "Node").
  { destruct t as [|c1 [|c2 [|c3 [|c4 [|c5 t]]]]]; cbn in He; try discriminate; injection He; intros; subst; try discriminate; [now split|].
    exfalso. assert (Hsp : has_char " " (t ++ String " " rest) = true) by (rewrite has_char_app; cbn; now rewrite orb_true_r).
    match goal with K : _ = (t ++ String " " rest)%string |- _ => rewrite <- K in Hsp end. discriminate. }
  destruct Hs as [_ ->]. destruct (c_known C _ Ht eq_refl eq_refl) as [Hk|Hk].
  - cbn in Hk. repeat (destruct Hk as [Hk|Hk]; try discriminate Hk; try contradiction).
  - destruct (Hk eq_refl) as [Hk'|[]]. cbn in Hk'. repeat (destruct Hk' as [Hk'|Hk']; try discriminate Hk'; try contradiction).
Qed.

(** A class that extends a later one. *)
Lemma ts_one : forall (S : Scope) l t, typing l t -> l = TypeScript -> t = "B" -> known TypeScript "B".
Proof.
  intros S l t H. destruct H; intros Hl He; try discriminate; subst; try assumption.
  - cbn in H. repeat (destruct H as [H|H]; try discriminate H; try contradiction).
  - apply (f_equal (has_char " ")) in He. rewrite !has_char_app, orb_true_r in He. discriminate.
Qed.

Lemma ts_class_extends : forall (S : Scope) i it d, declaration TypeScript i (it :: d) -> head it = "export class A extends B  {" -> known TypeScript "B".
Proof.
  intros S i it d H Hh. remember TypeScript as l eqn:Hl. remember (it :: d) as x eqn:Hx.
  destruct H; try discriminate; injection Hx as <- <-; cbn [head append] in Hh; try discriminate Hh; injection Hh as Hh; destruct H as [Hi _].
  - destruct (ident_end i " " "{" "A" " " "extends B  {" Hi ltac:(apply ident_check; reflexivity) eq_refl eq_refl Hh) as [_ Hx]. discriminate.
  - destruct (ident_end i " " ("extends " ++ t ++ "  {") "A" " " "extends B  {" Hi ltac:(apply ident_check; reflexivity) eq_refl eq_refl Hh) as [_ Hx].
    cbn in Hx. injection Hx as Hx. apply (ts_one _ TypeScript t H0 eq_refl).
    destruct t as [|c [|c' t]]; cbn in Hx; [discriminate | now injection Hx as -> |]. injection Hx as -> -> Hx.
    destruct t as [|c1 [|c2 t]]; cbn in Hx; try discriminate. injection Hx as _ Hx. destruct t as [|? [|? t]]; discriminate.
Qed.

Lemma ts_extends_later : forall ns ms r, ~ ordered_program (standard TypeScript) TypeScript (mkItem ns "export class A extends B  {" ms :: r).
Proof.
  intros ns ms r H. apply ordered_first in H as [i [d H]]. destruct (ts_class_extends _ i _ d H eq_refl eq_refl) as [Hk'|[]].
  cbn in Hk'. repeat (destruct Hk' as [Hk'|Hk']; try discriminate Hk'; try contradiction).
Qed.
