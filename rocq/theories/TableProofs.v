(** Proofs for C04, C06, C07, C08, C09, C44, C45, C46. *)

From Coq Require Import String Ascii List NArith ZArith Bool Lia ZifyBool ZifyN ZifyNat
  Sorting.Permutation Sorting.Sorted.
From Verif Require Import GoStr GoPath Base Utils GenGo GenC GenJava GenRust GenTS World Handlers Parser
  StrLemmas SpecStr SpecTables Stack StrProofs.
Import ListNotations.
Local Open Scope string_scope.

(** * C04 *)
Section Stack.
Context {A : Type}.

Lemma list_back_snoc : forall (l : list A) x, list_back (l ++ [x])%list = Some (length l).
Proof. intros l x. unfold list_back. rewrite app_length. cbn. now rewrite Nat.add_1_r. Qed.

Lemma list_value_snoc : forall (l : list A) x, list_value (length l) (l ++ [x])%list = Some x.
Proof. intros l x. unfold list_value. rewrite nth_error_app2 by lia. now rewrite Nat.sub_diag. Qed.

Lemma list_remove_snoc : forall (l : list A) x, list_remove (length l) (l ++ [x])%list = l.
Proof.
  intros l x. unfold list_remove. rewrite firstn_app, Nat.sub_diag, firstn_all. cbn [firstn].
  rewrite skipn_all2 by (rewrite app_length; cbn; lia). now rewrite !app_nil_r.
Qed.

Lemma stack_refines : forall (os : list (op A)) (s : list A), run (rev s) os = lifo s os.
Proof.
  induction os as [|o os IH]; intros s; [reflexivity|].
  destruct o as [v| | | |]; cbn [run step lifo].
  - f_equal. change (push v (rev s)) with (rev (v :: s)). apply IH.
  - destruct s as [|x t]; cbn [rev].
    + cbn. f_equal. apply (IH []).
    + unfold pop. rewrite list_back_snoc, list_value_snoc, list_remove_snoc. f_equal. apply IH.
  - f_equal; [|apply IH]. f_equal. unfold peek. destruct s as [|x t]; [reflexivity|]. cbn [rev].
    rewrite list_back_snoc. now rewrite list_value_snoc.
  - f_equal; [|apply IH]. f_equal. unfold len, list_len. apply rev_length.
  - f_equal; [|apply IH]. f_equal. unfold empty, list_len. rewrite rev_length. now destruct s.
Qed.

Lemma stack_lifo : forall os : list (op A), run new_stack os = lifo [] os.
Proof. intros os. exact (stack_refines os []). Qed.
End Stack.

(** * Tables: C06, C07, C08, C45, C46 *)

Lemma representation_eq : forall name lang, get_build_in_type name lang = representation lang name.
Proof.
  intros name lang. unfold get_build_in_type, representation, lang_index.
  destruct (in_dec string_dec name (keys build_in_types)) as [Hin|Hout].
  - revert name Hin. assert (H : forallb (fun n => match get n build_in_types, kind_of n with
      | Some [a; b; c; d; e], Some k => String.eqb a (go_type k) && String.eqb b (typescript_type k) && String.eqb c (c_type k) &&
          String.eqb d (java_type k) && String.eqb e (rust_type k)
      | _, _ => false end) (keys build_in_types) = true) by (vm_compute; reflexivity).
    rewrite forallb_forall in H. intros name Hin. specialize (H name Hin).
    destruct (get name build_in_types) as [[|a [|b [|c [|d [|e [|]]]]]]|]; try discriminate. destruct (kind_of name) as [k|]; [|discriminate].
    apply andb_true_iff in H as [H He]. apply andb_true_iff in H as [H Hd]. apply andb_true_iff in H as [H Hc].
    apply andb_true_iff in H as [Ha Hb]. apply String.eqb_eq in Ha, Hb, Hc, Hd, He. subst. cbn [option_map].
    destruct (String.eqb_spec lang "Go") as [->|_]; [reflexivity|].
    destruct (string_dec lang "TypeScript") as [->|H1]; [reflexivity|]. apply String.eqb_neq in H1. rewrite H1.
    destruct (string_dec lang "C") as [->|H2]; [reflexivity|]. apply String.eqb_neq in H2. rewrite H2.
    destruct (string_dec lang "Java") as [->|H3]; [reflexivity|]. apply String.eqb_neq in H3. rewrite H3.
    destruct (string_dec lang "Rust") as [->|H4]; [reflexivity|]. apply String.eqb_neq in H4. now rewrite H4.
  - replace (get name build_in_types) with (@None (list string)).
    + replace (kind_of name) with (@None kind); [reflexivity|]. symmetry. unfold kind_of.
      destruct (find _ kinds) as [x|] eqn:Hf; [|reflexivity]. exfalso. apply find_some in Hf as [Hx Hn].
      destruct (in_dec string_dec name (snd x)) as [Hi|]; [|discriminate]. apply Hout.
      assert (H : forallb (fun x => forallb (fun n => if in_dec string_dec n (keys build_in_types) then true else false) (snd x)) kinds = true)
        by (vm_compute; reflexivity).
      rewrite forallb_forall in H. specialize (H x Hx). rewrite forallb_forall in H. specialize (H name Hi).
      now destruct (in_dec string_dec name (keys build_in_types)).
    + symmetry. revert Hout. generalize build_in_types as m. induction m as [|[k v] m IH]; intros Hout; [reflexivity|]. cbn [get].
      destruct (String.eqb_spec k name) as [->|_]; [elim Hout; now left|]. apply IH. intros H. apply Hout. now right.
Qed.

Definition entry_ok (name lang : string) : bool :=
  match get_build_in_type name lang with
  | Some t => negb (String.eqb t "")
  | None => false
  end.

Lemma xsd_entries : forallb (fun n => forallb (entry_ok n) languages) xsd_builtin = true.
Proof. vm_compute. reflexivity. Qed.

Lemma xsd_no_colon : forallb (fun n => negb (has_char ":" n)) xsd_builtin = true.
Proof. vm_compute. reflexivity. Qed.

Lemma xsd_entry : forall name lang, In name xsd_builtin -> In lang languages ->
  exists t, get_build_in_type name lang = Some t /\ t <> "".
Proof.
  intros name lang Hn Hl. pose proof xsd_entries as H. rewrite forallb_forall in H.
  specialize (H name Hn). rewrite forallb_forall in H. specialize (H lang Hl). unfold entry_ok in H.
  destruct (get_build_in_type name lang) as [t|]; [|discriminate].
  exists t. split; [reflexivity|]. intros ->. discriminate.
Qed.

Lemma trim_prefixed : forall pre name, free_of ":" pre -> has_char ":" name = false ->
  trim_ns_prefix (pre ++ ":" ++ name) = name.
Proof. intros pre name Hp Hn. apply ns_split_one; [exact Hp | now apply free_of_has_char]. Qed.

Lemma trim_plain : forall name, has_char ":" name = false -> trim_ns_prefix name = name.
Proof. intros name H. unfold trim_ns_prefix. now rewrite split_on_no_char. Qed.

Section Env.
Context {E : Env}.

Lemma gvt_builtin : forall rec fuel o value name t tree w,
  trim_ns_prefix value = name -> get_build_in_type name (o_lang o) = Some t ->
  get_value_type rec fuel o value tree w = Ret t w.
Proof. intros rec fuel o value name t tree w Hv Ht. unfold get_value_type. now rewrite Hv, Ht. Qed.

Lemma builtin_resolves : forall name lang, In name xsd_builtin -> In lang languages ->
  exists t : string, t <> "" /\
    forall rec fuel o value tree w, o_lang o = lang ->
      (value = name \/ exists pre, free_of ":" pre /\ value = pre ++ ":" ++ name) ->
      get_value_type rec fuel o value tree w = Ret t w.
Proof.
  intros name lang Hn Hl. destruct (xsd_entry name lang Hn Hl) as [t [Ht Hne]].
  exists t. split; [exact Hne|]. intros rec fuel o value tree w Ho Hv.
  pose proof xsd_no_colon as Hc. rewrite forallb_forall in Hc. specialize (Hc name Hn).
  apply negb_true_iff in Hc. apply (gvt_builtin rec fuel o value name t); [|now rewrite Ho].
  destruct Hv as [->|[pre [Hp ->]]]; [now apply trim_plain | now apply trim_prefixed].
Qed.

(** The field-type renderer of each generator. *)
Definition render (lang t : string) : string :=
  if String.eqb lang "Go" then go_field_type t
  else if String.eqb lang "TypeScript" then ts_field_type t false
  else if String.eqb lang "C" then c_field_type t
  else if String.eqb lang "Java" then java_field_type t
  else rust_field_type t.

Definition verbatim (name lang : string) : bool :=
  match get_build_in_type name lang with
  | Some t => String.eqb (render lang t) t
  | None => false
  end.

Lemma verbatim_all : forallb (fun n => forallb (verbatim n) languages) xsd_builtin = true.
Proof. vm_compute. reflexivity. Qed.

Lemma builtin_verbatim : forall name lang, In name xsd_builtin -> In lang languages ->
  forall rec fuel o tree w, o_lang o = lang ->
  exists t, get_value_type rec fuel o name tree w = Ret t w /\ render lang t = t.
Proof.
  intros name lang Hn Hl rec fuel o tree w Ho.
  pose proof verbatim_all as H. rewrite forallb_forall in H.
  specialize (H name Hn). rewrite forallb_forall in H. specialize (H lang Hl). unfold verbatim in H.
  destruct (get_build_in_type name lang) as [t|] eqn:Ht; [|discriminate].
  apply String.eqb_eq in H. exists t. split; [|exact H].
  pose proof xsd_no_colon as Hc. rewrite forallb_forall in Hc. specialize (Hc name Hn).
  apply negb_true_iff in Hc. apply (gvt_builtin rec fuel o name name t); [now apply trim_plain | now rewrite Ho].
Qed.

(** A declaration named like a target type captures it when members are
    rendered. *)
Lemma builtin_captured :
  go_member_type [PElement (mkElement "" "string" "Color" false false)] "string" = "*Color".
Proof. vm_compute. reflexivity. Qed.

Lemma get_base_app : forall name a b, none_gives name a -> get_base name (a ++ b)%list = get_base name b.
Proof.
  intros name a b. induction a as [|p a IH]; [reflexivity|]. intros H. cbn [app get_base].
  assert (Ha : get_base name (a ++ b)%list = get_base name b).
  { apply IH. intros q u Hq. apply H. now right. }
  destruct p as [|v|v|v|v|v|v]; try exact Ha.
  - destruct (negb (st_list v) && negb (st_union v) && String.eqb (st_name v) name) eqn:Hm; [|exact Ha].
    apply andb_true_iff in Hm as [Hm Hn]. apply andb_true_iff in Hm as [Hl Hu].
    apply negb_true_iff in Hl, Hu. apply String.eqb_eq in Hn.
    exfalso. eapply (H (PSimple v)); [now left | now constructor].
  - destruct (String.eqb_spec (el_name v) name) as [Hn|Hn]; [|exact Ha].
    exfalso. eapply (H (PElement v)); [now left | now constructor].
  - destruct (String.eqb_spec (at_name v) name) as [Hn|Hn]; [|exact Ha].
    exfalso. eapply (H (PAttribute v)); [now left | now constructor].
Qed.

Lemma get_base_hit : forall name p t r, gives name p t -> get_base name (p :: r) = t.
Proof.
  intros name p t r H. destruct H as [v Hl Hu Hn|v Hn|v Hn]; cbn [get_base].
  - rewrite Hl, Hu, Hn, String.eqb_refl. reflexivity.
  - now rewrite Hn, String.eqb_refl.
  - now rewrite Hn, String.eqb_refl.
Qed.

Lemma get_base_first : forall name tree t, first_gives name tree t -> get_base name tree = t.
Proof.
  intros name tree t [before [p [after [-> [Hp Hb]]]]].
  rewrite get_base_app by exact Hb. now apply get_base_hit.
Qed.

Lemma get_base_none : forall name tree, none_gives name tree -> get_base name tree = name.
Proof.
  intros name tree H. rewrite <- (app_nil_r tree). now rewrite get_base_app.
Qed.

Lemma gives_dec : forall name p, (exists t, gives name p t) \/ (forall t, ~ gives name p t).
Proof.
  intros name p. destruct p as [|v|v|v|v|v|v]; try (right; intros t H; inversion H; fail).
  - destruct (st_list v) eqn:Hl; [right; intros t H; inversion H; congruence|].
    destruct (st_union v) eqn:Hu; [right; intros t H; inversion H; congruence|].
    destruct (string_dec (st_name v) name) as [Hn|Hn]; [|right; intros t H; inversion H; congruence].
    left. exists (st_base v). now constructor.
  - destruct (string_dec (el_name v) name) as [Hn|Hn]; [|right; intros t H; inversion H; congruence].
    left. exists (el_type v). now constructor.
  - destruct (string_dec (at_name v) name) as [Hn|Hn]; [|right; intros t H; inversion H; congruence].
    left. exists (at_type v). now constructor.
Qed.

Lemma first_or_none : forall name tree, (exists t, first_gives name tree t) \/ none_gives name tree.
Proof.
  intros name tree. induction tree as [|p tree IH].
  - right. intros q u [].
  - destruct (gives_dec name p) as [[t Ht]|Hp].
    + left. exists t, [], p, tree. split; [reflexivity|]. split; [exact Ht|]. intros q u [].
    + destruct IH as [[t [b [q [a [-> [Hq Hb]]]]]]|Hn].
      * left. exists t, (p :: b), q, a. split; [reflexivity|]. split; [exact Hq|].
        intros x u [<-|Hx]; [apply Hp | now apply Hb].
      * right. intros q u [<-|Hq]; [apply Hp | now apply Hn].
Qed.

Lemma first_gives_app : forall name a b t, first_gives name a t -> first_gives name (a ++ b)%list t.
Proof.
  intros name a b t [x [p [y [-> [Hp Hx]]]]]. exists x, p, (y ++ b)%list.
  split; [now rewrite <- app_assoc|]. now split.
Qed.

Lemma get_base_spec : forall name tree,
  (forall t, first_gives name tree t -> get_base name tree = t) /\
  (none_gives name tree -> get_base name tree = name) /\
  (exists t, first_gives name tree t \/ (none_gives name tree /\ t = name)) /\
  (forall more, (exists t, first_gives name tree t) -> get_base name (tree ++ more)%list = get_base name tree).
Proof.
  intros name tree. split; [|split; [|split]].
  - intros t. apply get_base_first.
  - apply get_base_none.
  - destruct (first_or_none name tree) as [[t Ht]|Hn]; [exists t; now left | exists name; now right].
  - intros more [t Ht]. rewrite (get_base_first _ _ _ Ht). apply get_base_first. now apply first_gives_app.
Qed.

(** * C45: the table rows for xml:lang etc. cannot be reached. *)

Definition xml_attributes : list string := ["xml:lang"; "xml:space"; "xml:base"; "xml:id"].

Lemma xml_rows_unreachable : forall value lang t,
  get_build_in_type (trim_ns_prefix value) lang = Some t -> ~ In (trim_ns_prefix value) xml_attributes \/
  forall p n, free_of ":" p -> free_of ":" n -> value <> p ++ ":" ++ n.
Proof.
  intros value lang t H. unfold trim_ns_prefix in *.
  pose proof (split_on_clean ":" value) as Hc. pose proof (split_on_join ":" value) as Hj.
  destruct (split_on ":" value) as [|a [|b [|c r]]] eqn:Hs.
  - right. intros p n Hp Hn ->. change (p ++ ":" ++ n) with (p ++ String ":" n) in Hs.
    apply free_of_has_char in Hp, Hn. rewrite split_on_app_char in Hs by exact Hp. discriminate.
  - right. intros p n Hp Hn ->. change (p ++ ":" ++ n) with (p ++ String ":" n) in Hs.
    apply free_of_has_char in Hp, Hn. rewrite split_on_app_char in Hs by exact Hp.
    pose proof (split_on_nonempty ":" n). destruct (split_on ":" n); [congruence | discriminate].
  - left. assert (Hb : has_char ":" b = false) by (apply Hc; right; now left).
    intros [<-|[<-|[<-|[<-|[]]]]]; discriminate.
  - right. intros p n Hp Hn ->. change (p ++ ":" ++ n) with (p ++ String ":" n) in Hs.
    apply free_of_has_char in Hp, Hn. rewrite split_on_app_char in Hs by exact Hp.
    rewrite split_on_no_char in Hs by exact Hn. discriminate.
Qed.

Lemma xml_lang_not_string : forall rec fuel o w name,
  In name xml_attributes -> o_extract o = true ->
  exists local, name = "xml:" ++ local /\ get_value_type rec fuel o name [] w = Ret local w.
Proof.
  intros rec fuel o w name Hn He.
  assert (Hgen : forall local, free_of ":" local -> get_build_in_type local (o_lang o) = None ->
     get_value_type rec fuel o ("xml:" ++ local) [] w = Ret local w).
  { intros local Hf Hb. unfold get_value_type.
    destruct (ns_split_one "xml" local) as [_ Ht]; [apply free_of_has_char; reflexivity | exact Hf|].
    change ("xml" ++ ":" ++ local) with ("xml:" ++ local) in Ht. rewrite Ht, Hb.
    cbn [get_base]. rewrite String.eqb_refl. cbn [negb andb]. now rewrite He. }
  assert (Hnone : forall local, In local ["lang"; "space"; "base"; "id"] -> get_build_in_type local (o_lang o) = None).
  { intros local Hl. unfold get_build_in_type. destruct Hl as [<-|[<-|[<-|[<-|[]]]]]; reflexivity. }
  assert (Hf : forall local, In local ["lang"; "space"; "base"; "id"] -> free_of ":" local).
  { intros local Hl. apply free_of_has_char. destruct Hl as [<-|[<-|[<-|[<-|[]]]]]; reflexivity. }
  destruct Hn as [<-|[<-|[<-|[<-|[]]]]];
    [exists "lang" | exists "space" | exists "base" | exists "id"];
    (split; [reflexivity|]); apply Hgen; first [apply Hf | apply Hnone]; cbn; tauto.
Qed.

(** The same outside extract mode when no location is known for the prefix and
    nothing is included. *)
Lemma xml_lang_unlocated : forall rec fuel o w name tree, In name xml_attributes -> none_gives (trim_ns_prefix name) tree ->
  get "xml" (w_lns w) = None -> get "" (w_nsl w) = None -> w_inc w = [] -> stat (join2 (dir (o_file o)) "") w = SDir -> fuel <> 0 ->
  exists local, name = "xml:" ++ local /\ get_value_type rec fuel o name tree w = Ret local w.
Proof.
  intros rec fuel o w name tree Hn Ht Hl Hs Hi Hd Hf.
  assert (Hgen : forall local, trim_ns_prefix ("xml:" ++ local) = local -> get_ns_prefix ("xml:" ++ local) = "xml" ->
     get_build_in_type local (o_lang o) = None -> none_gives local tree -> local <> "" ->
     get_value_type rec fuel o ("xml:" ++ local) tree w = Ret local w).
  { intros local H1 H2 Hb Hg H0. unfold get_value_type. cbv zeta. rewrite H1, H2, Hb, (get_base_none _ _ Hg), String.eqb_refl.
    cbn [negb andb]. destruct (o_extract o); [reflexivity|]. replace (get0 (get0 "xml" (w_lns w)) (w_nsl w)) with "" by (unfold get0 at 2; rewrite Hl; unfold get0; now rewrite Hs).
    change (is_valid_url "") with false. cbv iota. change (o_dir o) with (dir (o_file o)). rewrite Hd.
    destruct fuel as [|n]; [now elim Hf|]. cbn [include_loop]. rewrite Hi. cbn [filter existsb length].
    destruct (nth_error _ _) eqn:Hx; [now destruct (Nat.modulo _ _) in Hx|]. reflexivity. }
  destruct Hn as [<-|[<-|[<-|[<-|[]]]]];
    [exists "lang" | exists "space" | exists "base" | exists "id"];
    (split; [reflexivity|]); match goal with |- get_value_type _ _ _ ?v _ _ = Ret ?l _ => change v with ("xml:" ++ l) end;
    apply Hgen; [reflexivity|reflexivity|reflexivity|exact Ht|discriminate| reflexivity|reflexivity|reflexivity|exact Ht|discriminate
      |reflexivity|reflexivity|reflexivity|exact Ht|discriminate|reflexivity|reflexivity|reflexivity|exact Ht|discriminate].
Qed.

End Env.

(** * C08 *)

Definition bounded_ints : list string :=
  ["byte"; "short"; "int"; "long"; "unsignedByte"; "unsignedShort"; "unsignedInt"; "unsignedLong"].

Lemma bounded_only : forall x r, xsd_range x = Some r -> In x bounded_ints.
Proof.
  intros x r H. unfold xsd_range in H.
  repeat match type of H with
  | (if String.eqb x ?s then _ else _) = _ =>
      destruct (String.eqb_spec x s) as [->|?]; [cbn; tauto|]
  end. discriminate.
Qed.

Ltac fit := do 4 eexists; repeat split; try reflexivity; cbn in *; lia.

Lemma go_fits : forall x r, xsd_range x = Some r ->
  exists t, get_build_in_type x "Go" = Some t /\ fits "Go" x t.
Proof.
  intros x r H. apply bounded_only in H.
  repeat (destruct H as [<-|H]; [eexists; split; [reflexivity | fit]|]). destruct H.
Qed.

Lemma rust_fits : forall x r, xsd_range x = Some r -> x <> "byte" ->
  exists t, get_build_in_type x "Rust" = Some t /\ fits "Rust" x t.
Proof.
  intros x r H Hb. apply bounded_only in H. destruct H as [<-|H]; [congruence|].
  repeat (destruct H as [<-|H]; [eexists; split; [reflexivity | fit]|]). destruct H.
Qed.

Lemma rust_byte_unfit : get_build_in_type "byte" "Rust" = Some "u8" /\ ~ fits "Rust" "byte" "u8".
Proof.
  split; [reflexivity|]. intros [lo [hi [lo' [hi' [H1 [H2 H]]]]]].
  cbn in H1, H2. injection H1 as <- <-. injection H2 as <- <-. specialize (H (-1)%Z). lia.
Qed.

Lemma java_unfit : forall x, In x ["unsignedByte"; "unsignedShort"; "unsignedInt"; "unsignedLong"] ->
  exists t, get_build_in_type x "Java" = Some t /\ ~ fits "Java" x t.
Proof.
  intros x Hx. repeat (destruct Hx as [<-|Hx]; [eexists; split; [reflexivity|];
    intros [lo [hi [lo' [hi' [H1 [H2 H]]]]]]; cbn in H1, H2; injection H1 as <- <-; injection H2 as <- <- |]);
  [specialize (H (2^8-1)%Z) | specialize (H (2^16-1)%Z) | specialize (H (2^32-1)%Z) | specialize (H (2^64-1)%Z) | destruct Hx]; lia.
Qed.

Lemma java_fits : forall x, In x ["byte"; "short"; "int"; "long"] ->
  exists t, get_build_in_type x "Java" = Some t /\ fits "Java" x t.
Proof.
  intros x H. repeat (destruct H as [<-|H]; [eexists; split; [reflexivity | fit]|]). destruct H.
Qed.

Lemma c_long_unfit : get_build_in_type "long" "C" = Some "int" /\ ~ fits "C" "long" "int".
Proof.
  split; [reflexivity|]. intros [lo [hi [lo' [hi' [H1 [H2 H]]]]]].
  cbn in H1, H2. injection H1 as <- <-. injection H2 as <- <-. specialize (H (2^40)%Z). lia.
Qed.

Definition fitsb (lang x t : string) : bool :=
  match xsd_range x, target_range lang t with
  | Some (lo, hi), Some (lo', hi') => (lo' <=? lo)%Z && (hi <=? hi')%Z
  | _, _ => false
  end.

Lemma fitsb_spec : forall lang x t lo hi, xsd_range x = Some (lo, hi) -> (lo <= hi)%Z -> fits lang x t <-> fitsb lang x t = true.
Proof.
  intros lang x t lo hi Hx Hle. unfold fits, fitsb. rewrite Hx. split.
  - intros [l1 [h1 [l2 [h2 [H1 [-> H]]]]]]. injection H1 as <- <-. apply andb_true_iff. split; apply Z.leb_le.
    + apply (H lo). lia.
    + apply (H hi). lia.
  - destruct (target_range lang t) as [[l2 h2]|]; [|discriminate]. intros H. apply andb_true_iff in H as [H1 H2].
    apply Z.leb_le in H1, H2. exists lo, hi, l2, h2. repeat split; lia.
Qed.

Definition pair_dec (a b : string * string) : {a = b} + {a <> b}.
Proof. decide equality; apply string_dec. Defined.

Lemma fit_table : forallb (fun l => forallb (fun x =>
    match get_build_in_type x l with
    | Some t => Bool.eqb (fitsb l x t) (if in_dec pair_dec (l, x) misfits then false else true)
    | None => false
    end) bounded_ints) languages = true.
Proof. vm_compute. reflexivity. Qed.

Theorem fits_exactly : forall lang x r, In lang languages -> xsd_range x = Some r ->
  exists t, get_build_in_type x lang = Some t /\ (fits lang x t <-> ~ In (lang, x) misfits).
Proof.
  intros lang x [lo hi] Hl Hx. pose proof fit_table as H. rewrite forallb_forall in H. specialize (H lang Hl).
  rewrite forallb_forall in H. specialize (H x (bounded_only x _ Hx)).
  destruct (get_build_in_type x lang) as [t|]; [|discriminate]. exists t. split; [reflexivity|].
  assert (Hle : (lo <= hi)%Z).
  { pose proof (bounded_only x _ Hx) as Hb. repeat (destruct Hb as [<-|Hb]; [cbn in Hx; injection Hx as <- <-; lia|]). destruct Hb. }
  rewrite (fitsb_spec lang x t lo hi Hx Hle). apply eqb_prop in H. rewrite H.
  destruct (in_dec pair_dec (lang, x) misfits); intuition congruence.
Qed.

(** * C46 *)

Definition text_exception (name lang : string) : bool :=
  (String.eqb lang "Rust" && (String.eqb name "date" || String.eqb name "dateTime"))
  || (String.eqb lang "Java" && String.eqb name "anyURI").

Lemma text_table : forallb (fun n => forallb (fun l =>
  text_exception n l || match get_build_in_type n l with Some t => String.eqb t (string_type l) | None => false end)
  languages) xsd_text = true.
Proof. vm_compute. reflexivity. Qed.

Lemma text_types : forall name lang, In name xsd_text -> In lang languages ->
  ~ (lang = "Rust" /\ (name = "date" \/ name = "dateTime")) -> ~ (lang = "Java" /\ name = "anyURI") ->
  get_build_in_type name lang = Some (string_type lang).
Proof.
  intros name lang Hn Hl H1 H2. pose proof text_table as H. rewrite forallb_forall in H.
  specialize (H name Hn). rewrite forallb_forall in H. specialize (H lang Hl).
  apply orb_true_iff in H as [H|H].
  - exfalso. unfold text_exception in H. apply orb_true_iff in H as [H|H].
    + apply andb_true_iff in H as [Ha Hb]. apply String.eqb_eq in Ha. apply H1. split; [exact Ha|].
      apply orb_true_iff in Hb as [Hb|Hb]; apply String.eqb_eq in Hb; tauto.
    + apply andb_true_iff in H as [Ha Hb]. apply String.eqb_eq in Ha, Hb. tauto.
  - destruct (get_build_in_type name lang) as [t|]; [|discriminate]. apply String.eqb_eq in H. now subst t.
Qed.

(** * C09 *)

Lemma compare_lt : forall a b, String.compare a b = Lt <-> byte_lt a b.
Proof.
  induction a as [|x a IH]; intros [|y b]; cbn.
  - split; [discriminate | intros H; inversion H].
  - split; [intros _; constructor | reflexivity].
  - split; [discriminate | intros H; inversion H].
  - unfold Ascii.compare. destruct (N.compare_spec (N_of_ascii x) (N_of_ascii y)) as [Heq|Hlt|Hgt].
    + assert (x = y) as ->.
      { rewrite <- (ascii_N_embedding x), <- (ascii_N_embedding y). now rewrite Heq. }
      rewrite IH. split; [now constructor|]. intros H. inversion H; [lia | assumption].
    + split; [intros _; now constructor | reflexivity].
    + split; [discriminate|]. intros H. inversion H; subst; lia.
Qed.

Lemma str_ltb_spec : forall a b, str_ltb a b = true <-> byte_lt a b.
Proof.
  intros a b. unfold str_ltb. rewrite <- compare_lt. destruct (String.compare a b); split; congruence.
Qed.

Lemma byte_lt_irrefl : forall a, ~ byte_lt a a.
Proof. induction a as [|x a IH]; intros H; inversion H; [lia | now apply IH]. Qed.

Lemma byte_lt_trans : forall a b c, byte_lt a b -> byte_lt b c -> byte_lt a c.
Proof.
  intros a b c H. revert c. induction H as [x s|x y s t Hlt|x s t _ IH]; intros c Hc.
  - inversion Hc; constructor.
  - inversion Hc; subst; constructor; lia.
  - inversion Hc; subst; [now apply bl_head | apply bl_tail; now apply IH].
Qed.

Lemma byte_lt_total : forall a b, byte_lt a b \/ a = b \/ byte_lt b a.
Proof.
  induction a as [|x a IH]; intros [|y b].
  - tauto.
  - left; constructor.
  - right; right; constructor.
  - destruct (N.lt_trichotomy (N_of_ascii x) (N_of_ascii y)) as [H|[H|H]].
    + left. now constructor.
    + assert (x = y) as -> by (rewrite <- (ascii_N_embedding x), <- (ascii_N_embedding y); now rewrite H).
      destruct (IH b) as [Hl|[->|Hr]]; [left; now constructor | tauto | right; right; now constructor].
    + right; right. now constructor.
Qed.

Lemma kv_less_spec : forall x y, kv_less x y = true <-> member_before x y.
Proof.
  intros x y. unfold kv_less, member_before.
  rewrite orb_true_iff, andb_true_iff, !str_ltb_spec, String.eqb_eq. tauto.
Qed.

Lemma member_before_irrefl : forall x, ~ member_before x x.
Proof. intros x [H|[_ H]]; now apply byte_lt_irrefl in H. Qed.

Lemma member_before_trans : forall x y z, member_before x y -> member_before y z -> member_before x z.
Proof.
  intros x y z [H1|[E1 H1]] [H2|[E2 H2]]; unfold member_before.
  - left. eapply byte_lt_trans; eassumption.
  - left. now rewrite <- E2.
  - left. now rewrite E1.
  - right. split; [congruence|]. eapply byte_lt_trans; eassumption.
Qed.

Lemma member_before_total : forall x y, member_before x y \/ x = y \/ member_before y x.
Proof.
  intros [k1 v1] [k2 v2]. unfold member_before. cbn.
  destruct (byte_lt_total v1 v2) as [H|[->|H]]; [tauto| |tauto].
  destruct (byte_lt_total k1 k2) as [H|[->|H]]; tauto.
Qed.

Lemma kv_insert_perm : forall x l, Permutation (x :: l) (kv_insert x l).
Proof.
  induction l as [|y l IH]; cbn; [reflexivity|].
  destruct (kv_less x y); [reflexivity|]. rewrite perm_swap. now constructor.
Qed.

Lemma sorted_pairs_perm : forall m, Permutation m (to_sorted_pairs m).
Proof.
  induction m as [|x m IH]; cbn; [constructor|]. rewrite <- kv_insert_perm. now constructor.
Qed.

Lemma kv_insert_sorted : forall x l, ~ In x l -> StronglySorted member_before l ->
  StronglySorted member_before (kv_insert x l).
Proof.
  induction l as [|y l IH]; intros Hx Hs; cbn; [repeat constructor|].
  inversion_clear Hs as [|? ? Hs' Hy].
  destruct (kv_less x y) eqn:Hk.
  - apply kv_less_spec in Hk. constructor; [now constructor|]. constructor; [exact Hk|].
    eapply Forall_impl; [|exact Hy]. intros z Hz. eapply member_before_trans; eassumption.
  - assert (Hyx : member_before y x).
    { destruct (member_before_total y x) as [H|[H|H]]; [exact H | exfalso; apply Hx; now left|].
      apply kv_less_spec in H. congruence. }
    constructor; [apply IH; [intros H; apply Hx; now right | exact Hs']|].
    apply Forall_forall. intros z Hz. apply (Permutation_in z (Permutation_sym (kv_insert_perm x l))) in Hz.
    destruct Hz as [<-|Hz]; [exact Hyx|]. rewrite Forall_forall in Hy. now apply Hy.
Qed.

Lemma sorted_pairs_sorted : forall m, NoDup m -> StronglySorted member_before (to_sorted_pairs m).
Proof.
  induction m as [|x m IH]; intros H; cbn; [constructor|]. inversion_clear H as [|? ? Hx Hm].
  apply kv_insert_sorted; [|now apply IH]. intros Hin. apply Hx.
  eapply Permutation_in; [apply Permutation_sym, sorted_pairs_perm | exact Hin].
Qed.

Lemma sorted_unique : forall l l', StronglySorted member_before l -> StronglySorted member_before l' ->
  Permutation l l' -> l = l'.
Proof.
  induction l as [|x l IH]; intros l' Hl Hl' Hp.
  - apply Permutation_nil in Hp. now subst.
  - destruct l' as [|y l']; [apply Permutation_sym, Permutation_nil in Hp; discriminate|].
    inversion_clear Hl as [|? ? Hl1 Hx]. inversion_clear Hl' as [|? ? Hl2 Hy].
    rewrite Forall_forall in Hx, Hy.
    assert (x = y) as ->.
    { assert (H1 : In x (y :: l')) by (eapply Permutation_in; [exact Hp | now left]).
      assert (H2 : In y (x :: l)) by (eapply Permutation_in; [apply Permutation_sym, Hp | now left]).
      destruct H1 as [H1|H1]; [congruence|]. destruct H2 as [H2|H2]; [congruence|].
      exfalso. apply (member_before_irrefl x). eapply member_before_trans; [apply Hx, H2 | apply Hy, H1]. }
    f_equal. apply IH; [assumption | assumption|]. eapply Permutation_cons_inv. exact Hp.
Qed.

Lemma keys_nodup : forall (m : smap string), NoDup (map fst m) -> NoDup m.
Proof. intros m H. now apply NoDup_map_inv in H. Qed.

Lemma sorted_pairs_spec : forall (m : smap string), NoDup (keys m) ->
  Permutation m (to_sorted_pairs m) /\ StronglySorted member_before (to_sorted_pairs m) /\
  (forall order, Permutation m order -> to_sorted_pairs order = to_sorted_pairs m) /\
  (forall sorted, Permutation m sorted -> StronglySorted member_before sorted -> sorted = to_sorted_pairs m).
Proof.
  intros m Hm. assert (Hnd : NoDup m) by now apply keys_nodup.
  split; [apply sorted_pairs_perm|]. split; [now apply sorted_pairs_sorted|]. split.
  - intros order Hp. apply sorted_unique.
    + apply sorted_pairs_sorted. eapply Permutation_NoDup; eassumption.
    + now apply sorted_pairs_sorted.
    + rewrite <- sorted_pairs_perm, <- Hp. apply sorted_pairs_perm.
  - intros sorted Hp Hs. apply sorted_unique; [exact Hs | now apply sorted_pairs_sorted|].
    rewrite <- Hp. apply sorted_pairs_perm.
Qed.

Lemma any_simple_type_missing : forall lang, get_build_in_type "anySimpleType" lang = None.
Proof. intros lang. reflexivity. Qed.

Lemma text_types_wrong :
  get_build_in_type "date" "Rust" = Some "u8" /\ get_build_in_type "dateTime" "Rust" = Some "u8" /\
  get_build_in_type "anyURI" "Java" = Some "QName".
Proof. repeat split. Qed.

Lemma text_exact_table : forallb (fun n => forallb (fun l =>
    match get_build_in_type n l with
    | Some t => Bool.eqb (String.eqb t (string_type l)) (if in_dec pair_dec (l, n) not_strings then false else true)
    | None => false
    end) languages) xsd_text = true.
Proof. vm_compute. reflexivity. Qed.

Theorem text_exactly : forall name lang, In name xsd_text -> In lang languages ->
  (get_build_in_type name lang = Some (string_type lang) <-> ~ In (lang, name) not_strings).
Proof.
  intros name lang Hn Hl. pose proof text_exact_table as H. rewrite forallb_forall in H. specialize (H name Hn).
  rewrite forallb_forall in H. specialize (H lang Hl). destruct (get_build_in_type name lang) as [t|]; [|discriminate].
  apply eqb_prop in H. destruct (String.eqb_spec t (string_type lang)) as [He|He];
  destruct (in_dec pair_dec (lang, name) not_strings); intuition congruence.
Qed.

(** No row of BuildInTypes is short, so the index expression of
    getBuildInTypeByLang never panics. *)
Lemma build_in_rows_full : forall v row lang, get v build_in_types = Some row ->
  exists t, nth_error row (lang_index lang) = Some t.
Proof.
  intros v row lang H.
  assert (F : forallb (fun kv => Nat.eqb (length (snd kv)) 5) build_in_types = true) by (vm_compute; reflexivity).
  assert (In (v, row) build_in_types) as Hin.
  { revert H. generalize build_in_types. intros m. induction m as [|[k r] m IH]; cbn; [discriminate|].
    destruct (String.eqb_spec k v) as [E|Hn]; [intros [= ->]; left; now rewrite E|]. intros H. right. now apply IH. }
  rewrite forallb_forall in F. specialize (F _ Hin). apply Nat.eqb_eq in F. cbn in F.
  destruct (nth_error row (lang_index lang)) as [t|] eqn:Hn; [now exists t|].
  apply nth_error_None in Hn. unfold lang_index in Hn.
  repeat match type of Hn with context [if ?b then _ else _] => destruct b end; lia.
Qed.
