(** Property theorems about included schemas that include others: C38. *)

From Coq Require Import String Ascii List Arith NArith ZArith Bool Lia.
From Verif Require Import GoStr GoPath Base Utils World Handlers Parser SpecStr SpecDoc SpecTables SpecParse ParserProofs ParseFacts IncludeProofs SpecIncludes IncludeFuel Demo.
Import ListNotations.
Local Open Scope string_scope.

(** C38.  Included schemas that may include others, all of them in [K]: if those
    that declare the type agree and one of them is included directly, every
    order returns the same type, and the loop ends. *)
Theorem C38_nested_partial : forall (E : Env) d fuel o v tree w loc K T found,
  o_extract o = false -> representation (o_lang o) (local_part v) = None -> none_gives (local_part v) tree ->
  location v w loc -> ~ is_url loc -> stat (join2 (dir (o_file o)) loc) w = SDir ->
  included_schemas d fuel o w K (local_part v) T found -> incl (w_inc w) K -> T <> local_part v -> T <> "" -> length K < fuel ->
  let value ch := get_value_type (E := with_choose E ch) (parse (E := with_choose E ch) d fuel) fuel o v tree w in
  ((exists k, In k (w_inc w) /\ found k = true) -> forall ch, exists w', value ch = Ret T w') /\
  ((forall k, In k K -> found k = false) -> forall ch, exists w', value ch = Ret (local_part v) w').
Proof. exact include_nested. Qed.
Print Assumptions C38_nested_partial.

(** T is declared by j.xsd and by k.xsd, which only j.xsd includes: k.xsd is added
    to the included schemas while the loop runs. *)
Definition nested_docs : smap (list token) :=
  [("J", d_schema [] (d_include "k.xsd" ++ d_simple "T" "integer")); ("K", d_schema [] (d_simple "S" "string" ++ d_simple "T" "integer"))].
Definition nested_world : World := set_inc ["j.xsd"] (demo_world [("i.xsd", "I"); ("j.xsd", "J"); ("k.xsd", "K")]).

Example C38_nested_example : let E := demo nested_docs first_choice in let o := demo_opts "i.xsd" "Go" false in
  included_schemas 3 3 o nested_world ["j.xsd"; "k.xsd"] "T" "int" (fun _ => true) /\
  (exists p w', parse 3 3 (nested o "in/j.xsd" true) nested_world = Ret p w' /\ w_inc w' = ["j.xsd"; "k.xsd"]) /\
  forall ch, exists w', get_value_type (E := with_choose E ch) (parse (E := with_choose E ch) 3 3) 3 o "T" [] nested_world = Ret "int" w'.
Proof.
  intros E o.
  assert (H : included_schemas 3 3 o nested_world ["j.xsd"; "k.xsd"] "T" "int" (fun _ => true)).
  { intros k w1 [<-|[<-|[]]] Hw; destruct w1 as [fs inc lns nsl plist pmap tick count]; cbn in Hw; subst fs.
    - eexists. eexists. split; [vm_compute; reflexivity|]. split.
      + intros x Hx. change (In x (add_key "k.xsd" inc)) in Hx. apply add_key_In in Hx as [Hx|Hx]; auto. right. right. left. auto.
      + exists [], (PSimple (mkSimple "" "T" "int" false false [] [])), []. split; [vm_compute; reflexivity|].
        split; [now apply gives_simple|intros q u []].
    - eexists. eexists. split; [vm_compute; reflexivity|]. split; [intros x Hx; now left|].
      exists [PSimple (mkSimple "" "S" "string" false false [] [])], (PSimple (mkSimple "" "T" "int" false false [] [])), [].
      split; [vm_compute; reflexivity|].
      split; [now apply gives_simple|]. intros q u [<-|[]] Hq. inversion Hq; subst; discriminate. }
  split; [exact H|]. split; [do 2 eexists; split; vm_compute; reflexivity|].
  destruct (C38_nested_partial E 3 3 o "T" [] nested_world "" ["j.xsd"; "k.xsd"] "int" (fun _ => true)) as [Hx _]; try reflexivity.
  - intros q u [].
  - exists "". split; right; now split.
  - intros Hu. now apply url_spec in Hu.
  - exact H.
  - intros x [<-|[]]. now left.
  - discriminate.
  - discriminate.
  - cbn. lia.
  - apply Hx. exists "j.xsd". split; [now left|reflexivity].
Qed.

(** Included schemas that need not agree: the result is a type that one of them
    gives, and the name itself only if none of the schemas included directly
    gives it a type. *)
Theorem C38_values_partial : forall (E : Env) d fuel o v tree w loc K gives,
  o_extract o = false -> representation (o_lang o) (local_part v) = None -> none_gives (local_part v) tree ->
  location v w loc -> ~ is_url loc -> stat (join2 (dir (o_file o)) loc) w = SDir ->
  included_within d fuel o w K (local_part v) gives -> incl (w_inc w) K -> length K < fuel ->
  exists t w', get_value_type (parse d fuel) fuel o v tree w = Ret t w' /\
    ((exists k, In k K /\ gives k = Some t) \/ t = local_part v /\ forall k, In k (w_inc w) -> gives k = None).
Proof. exact include_sound. Qed.
Print Assumptions C38_values_partial.

(** The types that the schemas included directly give are all returned in some
    order, whatever else is included; so if the order does not matter, they
    agree. *)
Theorem C38_direct_partial : forall (E : Env) d fuel o v tree w loc K gives,
  o_extract o = false -> representation (o_lang o) (local_part v) = None -> none_gives (local_part v) tree ->
  location v w loc -> ~ is_url loc -> stat (join2 (dir (o_file o)) loc) w = SDir ->
  included_within d fuel o w K (local_part v) gives -> incl (w_inc w) K -> NoDup (w_inc w) -> length (w_inc w) < fuel ->
  let value ch := get_value_type (E := with_choose E ch) (parse (E := with_choose E ch) d fuel) fuel o v tree w in
  (forall t, (exists k, In k (w_inc w) /\ gives k = Some t) \/ t = local_part v /\ (forall k, In k (w_inc w) -> gives k = None) ->
    exists ch w', value ch = Ret t w') /\
  ((exists t, forall ch, exists w', value ch = Ret t w') ->
    forall k k' t t', In k (w_inc w) -> In k' (w_inc w) -> gives k = Some t -> gives k' = Some t' -> t = t').
Proof.
  intros E d fuel o v tree w loc K gives He Hb Hg Hloc Hu Hs Hk Hinc Hnd Hfuel value.
  pose proof (include_direct E d fuel o v tree w loc K gives He Hb Hg Hloc Hu Hs Hk Hinc Hnd Hfuel) as H.
  split; [exact H|]. intros [t0 H0] k k' t t' Hi Hi' Hgv Hgv'.
  destruct (H t (or_introl (ex_intro _ k (conj Hi Hgv)))) as [ch [w1 Hv]].
  destruct (H t' (or_introl (ex_intro _ k' (conj Hi' Hgv')))) as [ch' [w2 Hv']].
  destruct (H0 ch) as [w3 Hv3]. destruct (H0 ch') as [w4 Hv4]. unfold value in Hv3, Hv4. rewrite Hv in Hv3. rewrite Hv' in Hv4.
  injection Hv3 as -> _. now injection Hv4 as -> _.
Qed.
Print Assumptions C38_direct_partial.

(** Two schemas are included directly, a third by the first of them; all three
    declare T differently. *)
Definition three_docs : smap (list token) :=
  [("J", d_schema [] (d_include "l.xsd" ++ d_simple "T" "integer")); ("K", d_schema [] (d_simple "T" "string"));
   ("L", d_schema [] (d_simple "T" "boolean"))].
Definition three_world : World :=
  set_inc ["j.xsd"; "k.xsd"] (demo_world [("i.xsd", "I"); ("j.xsd", "J"); ("k.xsd", "K"); ("l.xsd", "L")]).

Example C38_direct_example : let E := demo three_docs first_choice in let o := demo_opts "i.xsd" "Go" false in
  let gives k := if String.eqb k "j.xsd" then Some "int" else if String.eqb k "k.xsd" then Some "string" else Some "bool" in
  let value ch := get_value_type (E := with_choose E ch) (parse (E := with_choose E ch) 4 4) 4 o "T" [] three_world in
  included_within 4 4 o three_world ["j.xsd"; "k.xsd"; "l.xsd"] "T" gives /\
  (exists ch w', value ch = Ret "int" w') /\ (exists ch w', value ch = Ret "string" w') /\
  (forall ch t w', value ch = Ret t w' -> t = "int" \/ t = "string" \/ t = "bool").
Proof.
  intros E o gives.
  assert (H : forall ch, included_within (E := with_choose E ch) 4 4 o three_world ["j.xsd"; "k.xsd"; "l.xsd"] "T" gives).
  { intros ch k w1 [<-|[<-|[<-|[]]]] Hw; destruct w1 as [fs inc lns nsl plist pmap tick count]; cbn in Hw; subst fs.
    all: eexists; eexists; split; [vm_compute; reflexivity|].
    - split; [|split; [|split; discriminate]].
      + intros x Hx. change (In x (add_key "l.xsd" inc)) in Hx. apply add_key_In in Hx as [Hx|Hx]; auto. right. right. right. left. auto.
      + exists [], (PSimple (mkSimple "" "T" "int" false false [] [])), []. split; [vm_compute; reflexivity|].
        split; [now apply gives_simple|intros q u []].
    - split; [intros x Hx; now left|split; [|split; discriminate]].
      exists [], (PSimple (mkSimple "" "T" "string" false false [] [])), []. split; [vm_compute; reflexivity|].
      split; [now apply gives_simple|intros q u []].
    - split; [intros x Hx; now left|split; [|split; discriminate]].
      exists [], (PSimple (mkSimple "" "T" "bool" false false [] [])), []. split; [vm_compute; reflexivity|].
      split; [now apply gives_simple|intros q u []]. }
  intros value. assert (Hl : location "T" three_world "") by (exists ""; split; right; now split).
  assert (Hu : ~ is_url (E := E) "") by (intros Hu; now apply url_spec in Hu).
  assert (Hg : none_gives "T" []) by (intros q u []).
  assert (Hi : incl (w_inc three_world) ["j.xsd"; "k.xsd"; "l.xsd"]) by (intros x [<-|[<-|[]]]; cbn; auto).
  split; [exact (H first_choice)|].
  destruct (C38_direct_partial E 4 4 o "T" [] three_world "" ["j.xsd"; "k.xsd"; "l.xsd"] gives eq_refl eq_refl Hg Hl Hu eq_refl (H first_choice) Hi) as [Hd _].
  { repeat constructor; cbn; intuition discriminate. }
  { cbn. lia. }
  split; [apply Hd; left; exists "j.xsd"; cbn; auto|]. split; [apply Hd; left; exists "k.xsd"; cbn; auto|].
  intros ch t w' Hv.
  destruct (C38_values_partial (with_choose E ch) 4 4 o "T" [] three_world "" ["j.xsd"; "k.xsd"; "l.xsd"] gives eq_refl eq_refl Hg Hl Hu eq_refl (H ch) Hi) as [t' [w2 [Hv' Ht]]].
  { cbn. lia. }
  unfold value in Hv. rewrite Hv in Hv'. injection Hv' as <- _.
  destruct Ht as [[k [[<-|[<-|[<-|[]]]] Hk]]|[-> Hn]]; [injection Hk as <-; auto|injection Hk as <-; auto|injection Hk as <-; auto|].
  specialize (Hn "j.xsd" (or_introl eq_refl)). discriminate.
Qed.

(** A type declared only by a schema that an included schema includes: the loop
    may visit that schema or end before, so the result depends on the order. *)
Definition late_docs : smap (list token) :=
  [("I", d_schema [] (d_include "j.xsd" ++ d_element "x" "T"));
   ("J", d_schema [] (d_include "k.xsd" ++ d_simple "S" "string")); ("K", d_schema [] (d_simple "T" "integer"))].

Theorem C38_late_refuted : exists (E : Env) ch ch' d fuel o w t t',
  see (parse (E := with_choose E ch) d fuel o w) = Comps [PElement (mkElement "" "x" t false false)] /\
  see (parse (E := with_choose E ch') d fuel o w) = Comps [PElement (mkElement "" "x" t' false false)] /\ t <> t'.
Proof.
  exists (demo late_docs first_choice), first_choice, (fun n => n), 4, 4, (demo_opts "i.xsd" "Go" false),
    (demo_world [("i.xsd", "I"); ("j.xsd", "J"); ("k.xsd", "K")]), "int", "T".
  split; [vm_compute; reflexivity|]. split; [vm_compute; reflexivity|discriminate].
Qed.
Print Assumptions C38_late_refuted.

(** There are no other results. *)
Definition late_world : World := set_inc ["j.xsd"] (demo_world [("i.xsd", "I"); ("j.xsd", "J"); ("k.xsd", "K")]).

Example C38_values_example : let o := demo_opts "i.xsd" "Go" false in
  let gives k := if String.eqb k "k.xsd" then Some "int" else None in
  forall ch, let E := demo late_docs ch in
  included_within 3 3 o late_world ["j.xsd"; "k.xsd"] "T" gives /\
  exists t w', get_value_type (parse 3 3) 3 o "T" [] late_world = Ret t w' /\ (t = "int" \/ t = "T").
Proof.
  intros o gives ch E.
  assert (H : included_within 3 3 o late_world ["j.xsd"; "k.xsd"] "T" gives).
  { intros k w1 [<-|[<-|[]]] Hw; destruct w1 as [fs inc lns nsl plist pmap tick count]; cbn in Hw; subst fs.
    - eexists. eexists. split; [vm_compute; reflexivity|]. split.
      + intros x Hx. change (In x (add_key "k.xsd" inc)) in Hx. apply add_key_In in Hx as [Hx|Hx]; auto. right. right. left. auto.
      + intros q u [<-|[]] Hq. inversion Hq; subst; discriminate.
    - eexists. eexists. split; [vm_compute; reflexivity|]. split; [intros x Hx; now left|]. split; [|split; discriminate].
      exists [], (PSimple (mkSimple "" "T" "int" false false [] [])), []. split; [vm_compute; reflexivity|].
      split; [now apply gives_simple|intros q u []]. }
  split; [exact H|].
  destruct (C38_values_partial E 3 3 o "T" [] late_world "" ["j.xsd"; "k.xsd"] gives) as [t [w' [Hv Ht]]]; try reflexivity.
  - intros q u [].
  - exists "". split; right; now split.
  - intros Hu. now apply url_spec in Hu.
  - exact H.
  - intros x [<-|[]]. now left.
  - cbn. lia.
  - exists t, w'. split; [exact Hv|]. destruct Ht as [[k [[<-|[<-|[]]] Hk]]|[-> _]]; [discriminate| |now right].
    left. now injection Hk as <-.
Qed.
