(** Row filters: C45. *)
Require Import String.
Require Import List Arith ZArith Bool Lia.
Require Import Verif.Common Verif.FilterModel.
Import ListNotations.
Local Open Scope Z_scope.
Local Open Scope list_scope.

(** ** Specification *)

(** Value of a row in a column, as a number. *)
Definition value {D} (columns : string -> option (column D)) (name : string) (r : D) (x : Z) : Prop :=
  match columns name with
  | Some (IntCol f) => x = f r
  | Some (BoolCol f) => x = if f r then 1 else 0
  | None => False
  end.

(** A row satisfies a condition. *)
Inductive holds {D} (columns : string -> option (column D)) (r : D) : cond -> Prop :=
| HEq name x v : value columns name r x -> x = v -> holds columns r (name, "=="%string, One v)
| HEq1 name x v : value columns name r x -> x = v -> holds columns r (name, "="%string, One v)
| HNe name x v : value columns name r x -> x <> v -> holds columns r (name, "!="%string, One v)
| HGt name x v : value columns name r x -> x > v -> holds columns r (name, ">"%string, One v)
| HGe name x v : value columns name r x -> x >= v -> holds columns r (name, ">="%string, One v)
| HLt name x v : value columns name r x -> x < v -> holds columns r (name, "<"%string, One v)
| HLe name x v : value columns name r x -> x <= v -> holds columns r (name, "<="%string, One v)
| HIn name x l : value columns name r x -> In x l -> holds columns r (name, "in"%string, Many l)
| HNotIn name x l : value columns name r x -> ~ In x l -> holds columns r (name, "not in"%string, Many l)
| HNot name f v : columns name = Some (BoolCol f) -> f r = false -> holds columns r (name, "~"%string, v).

(** A condition can be evaluated: known operator, existing column, value of the right kind. *)
Definition comparisons := ["=="; "="; "!="; ">"; ">="; "<"; "<="]%string.
Inductive meaningful {D} (columns : string -> option (column D)) : cond -> Prop :=
| MCmp name op v : columns name <> None -> In op comparisons -> meaningful columns (name, op, One v)
| MIn name op l : columns name <> None -> In op ["in"; "not in"]%string -> meaningful columns (name, op, Many l)
| MNot name f v : columns name = Some (BoolCol f) -> meaningful columns (name, "~"%string, v).

(** A list of groups of conditions, none being empty of lists, all meaningful. *)
Definition well_formed {D} (columns : string -> option (column D)) (filters : list or_part) : Prop :=
  filters <> [] /\ forall p, In p filters -> exists l, p = Conds l /\ forall c, In c l -> meaningful columns c.
(** A row satisfies all conditions of one of the groups. *)
Definition accepted {D} (columns : string -> option (column D)) (filters : list or_part) (r : D) : Prop :=
  exists l, In (Conds l) filters /\ forall c, In c l -> holds columns r c.

(** [out] is made of the elements of [l] satisfying [p], in the same order. *)
Inductive kept {A} (p : A -> Prop) : list A -> list A -> Prop :=
| KNone : kept p [] []
| KYes x l out : p x -> kept p l out -> kept p (x :: l) (x :: out)
| KNo x l out : ~ p x -> kept p l out -> kept p (x :: l) out.

(** ** Proofs *)
Lemma compress_map : forall {A} (g : A -> bool) l, compress (map g l) l = filter g l.
Proof. induction l as [|x l IH]; simpl; auto. destruct (g x); rewrite IH; auto. Qed.
Lemma map2_map : forall {A B C E} (f : B -> C -> E) (g : A -> B) (h : A -> C) l, map2 f (map g l) (map h l) = map (fun x => f (g x) (h x)) l.
Proof. induction l; simpl; congruence. Qed.
Lemma repeat_map : forall {A B} (b : B) (l : list A), repeat b (length l) = map (fun _ => b) l.
Proof. induction l; simpl; congruence. Qed.
Lemma filter_kept : forall {A} (g : A -> bool) (p : A -> Prop) l, (forall x, In x l -> g x = true <-> p x) -> kept p l (filter g l).
Proof.
  induction l as [|x l IH]; simpl; intros H; [constructor|].
  destruct (g x) eqn:E; constructor; auto.
  - apply H; auto.
  - intro Q. apply H in Q; auto. congruence.
Qed.
Lemma kept_fun : forall {A} (p : A -> Prop) l out, kept p l out -> forall out', kept p l out' -> out = out'.
Proof.
  induction 1; intros out' H'; inversion H'; subst; auto; try tauto.
  f_equal. auto.
Qed.

Section Proofs.
Context {D : Type}.
Variable columns : string -> option (column D).

Definition number (c : column D) (r : D) : Z := match c with IntCol f => f r | BoolCol f => truth (f r) end.
Lemma numbers_map : forall c rows, numbers c rows = map (number c) rows.
Proof. intros [f|f] rows; auto. Qed.
Lemma value_number : forall name c r x, columns name = Some c -> value columns name r x <-> x = number c r.
Proof. intros name c r x E. unfold value. rewrite E. destruct c; simpl; unfold truth; tauto. Qed.

Ltac str H := unfold comparisons in H; repeat (match type of H with In _ [] => destruct H | In _ (_ :: _) => destruct H as [H|H] end).

Lemma ops_reserved : ops "in" = None /\ ops "not in" = None /\ ops "~" = None.
Proof. auto. Qed.

Lemma cond_ok : forall c, meaningful columns c ->
  exists g : D -> bool, (forall rows, cond_mask columns rows c = Ok (map g rows)) /\ forall r, g r = true <-> holds columns r c.
Proof.
  intros c H. inversion H as [name op v Hc Ho|name op l Hc Ho|name f v Hc]; subst.
  - destruct (columns name) as [cl|] eqn:Ec; [|congruence]. unfold get_col.
    exists (fun r => match ops op with Some f => f (number cl r) v | None => false end).
    str Ho; subst op; cbn -[compare numbers]; unfold get_col; rewrite Ec; cbn -[numbers number Z.gtb Z.geb];
      (split; [intro rows; rewrite numbers_map, map_map; auto|intro r]); (split; intro Q).
    all: try (inversion Q; subst; rewrite (value_number name cl) in * by auto; subst;
              first [apply Z.eqb_eq; auto|apply negb_true_iff, Z.eqb_neq; auto|apply Z.gtb_lt; lia|rewrite Z.geb_leb; apply Z.leb_le; lia|apply Z.ltb_lt; lia|apply Z.leb_le; lia]).
    all: econstructor; [apply (value_number name cl); eauto|];
         first [apply Z.eqb_eq; auto; fail|apply negb_true_iff, Z.eqb_neq in Q; auto|apply Z.gtb_lt in Q; lia|rewrite Z.geb_leb in Q; apply Z.leb_le in Q; lia|apply Z.ltb_lt in Q; lia|apply Z.leb_le in Q; lia].
  - destruct (columns name) as [cl|] eqn:Ec; [|congruence].
    assert (M : forall r, memb Z.eqb (number cl r) l = true <-> In (number cl r) l).
    { intro r. unfold memb. rewrite existsb_exists. split; [intros (x & A & B); apply Z.eqb_eq in B; congruence|].
      intro A. exists (number cl r). split; auto. apply Z.eqb_refl. }
    str Ho; subst op; cbn; unfold get_col; rewrite Ec; cbn.
    + exists (fun r => memb Z.eqb (number cl r) l). split; [intro rows; rewrite numbers_map, map_map; auto|intro r].
      rewrite M. split; intro Q; [econstructor; [apply (value_number name cl); eauto|auto]|].
      inversion Q; subst; try discriminate. match goal with A : value _ _ _ _ |- _ => apply (value_number name cl) in A; auto; subst end. auto.
    + exists (fun r => negb (memb Z.eqb (number cl r) l)). split; [intro rows; rewrite numbers_map, !map_map; auto|intro r].
      rewrite negb_true_iff, <- not_true_iff_false, M. split; intro Q; [econstructor; [apply (value_number name cl); eauto|auto]|].
      inversion Q; subst; try discriminate. match goal with A : value _ _ _ _ |- _ => apply (value_number name cl) in A; auto; subst end. auto.
  - exists (fun r => negb (f r)). cbn. unfold get_col. rewrite Hc. cbn. split; auto.
    intro r. rewrite negb_true_iff. split; intro Q; [econstructor; eauto|]. inversion Q; subst. congruence.
Qed.

Lemma and_ok : forall l, (forall c, In c l -> meaningful columns c) ->
  exists g : D -> bool, (forall rows h, and_masks columns rows l (map h rows) = Ok (map (fun r => h r && g r) rows)) /\
    forall r, g r = true <-> forall c, In c l -> holds columns r c.
Proof.
  induction l as [|c l IH]; intros H.
  - exists (fun _ => true). split; [|simpl; tauto]. intros rows h. simpl. f_equal. apply map_ext. intro. now rewrite andb_true_r.
  - destruct (cond_ok c) as (g & G1 & G2); [apply H; simpl; auto|].
    destruct IH as (g' & A1 & A2); [intros; apply H; simpl; auto|].
    exists (fun r => g r && g' r). split.
    + intros rows h. simpl. rewrite G1. simpl. rewrite map2_map, A1. f_equal. apply map_ext. intro. now rewrite andb_assoc.
    + intro r. rewrite andb_true_iff, G2, A2. simpl. split; [intros [A B] c' [<-|Q]; auto|intro A; split; auto].
Qed.

Lemma or_ok : forall filters, (forall p, In p filters -> exists l, p = Conds l /\ forall c, In c l -> meaningful columns c) ->
  exists g : D -> bool, (forall rows h, or_masks columns rows filters (map h rows) = Ok (map (fun r => h r || g r) rows)) /\
    forall r, g r = true <-> accepted columns filters r.
Proof.
  induction filters as [|p fs IH]; intros H.
  - exists (fun _ => false). split.
    + intros rows h. simpl. f_equal. apply map_ext. intro. now rewrite orb_false_r.
    + intro r. split; [discriminate|intros (l & [] & _)].
  - destruct (H p) as (l & -> & Hl); [simpl; auto|].
    destruct (and_ok l Hl) as (g & G1 & G2). destruct IH as (g' & A1 & A2); [intros; apply H; simpl; auto|].
    exists (fun r => g r || g' r). split.
    + intros rows h. simpl. rewrite repeat_map, G1. simpl. rewrite map2_map, A1. f_equal. apply map_ext. intro. now rewrite orb_assoc.
    + intro r. rewrite orb_true_iff, G2, A2. split.
      * intros [A|(l' & A & B)]; [exists l; simpl; auto|exists l'; simpl; auto].
      * intros (l' & [A|A] & B); [injection A as <-; auto|right; exists l'; auto].
Qed.

Lemma filter_ok : forall filters, well_formed columns filters ->
  exists g : D -> bool, (forall rows, dataframe_filter columns rows filters = Ok (map g rows)) /\
    forall r, g r = true <-> accepted columns filters r.
Proof.
  intros filters [Hne H]. destruct (or_ok filters H) as (g & A1 & A2). exists g. split; auto.
  intro rows. unfold dataframe_filter. destruct filters as [|p fs]; [congruence|].
  destruct (H p) as (l & -> & _); [simpl; auto|]. rewrite repeat_map, A1. f_equal.
Qed.

(** What is refused. A comparison with a list is left apart: it is not a condition on rows. *)
Definition listed_comparison (c : cond) : Prop := match c with (_, op, Many _) => In op comparisons | _ => False end.

Lemma ops_known : forall op f, ops op = Some f -> In op comparisons.
Proof.
  intros op f H. unfold ops in H. repeat (match type of H with (if String.eqb ?a ?b then _ else _) = _ => destruct (String.eqb_spec a b) as [->|] end); simpl; tauto || discriminate.
Qed.

Lemma cond_refused : forall rows c, ~ meaningful columns c -> ~ listed_comparison c -> exists e, cond_mask columns rows c = Err e.
Proof.
  intros rows [[name op] v] Hm Hl. unfold cond_mask, get_col.
  destruct (String.eqb_spec op "in") as [->|N1].
  { destruct (columns name) as [cl|] eqn:Ec; [|simpl; eauto]. simpl. destruct v; simpl; [eauto|].
    exfalso. apply Hm. apply MIn; [congruence|simpl; auto]. }
  destruct (String.eqb_spec op "not in") as [->|N2].
  { destruct (columns name) as [cl|] eqn:Ec; [|simpl; eauto]. simpl. destruct v; simpl; [eauto|].
    exfalso. apply Hm. apply MIn; [congruence|simpl; auto]. }
  destruct (ops op) as [f|] eqn:Eo.
  { destruct (columns name) as [cl|] eqn:Ec; [|simpl; eauto]. apply ops_known in Eo. exfalso.
    destruct v as [z|l]; [|apply Hl; exact Eo]. apply Hm. apply MCmp; [congruence|auto]. }
  destruct (String.eqb_spec op "~") as [->|N3]; [|eauto].
  destruct (columns name) as [[f|f]|] eqn:Ec; simpl; eauto. exfalso. apply Hm. eapply MNot; eauto.
Qed.

Lemma and_refused : forall rows l h c, In c l -> ~ meaningful columns c -> ~ listed_comparison c ->
  exists e, and_masks columns rows l h = Err e.
Proof.
  induction l as [|c' l IH]; intros h c Hin Hm Hl; [destruct Hin|]. simpl.
  destruct Hin as [->|Hin].
  - destruct (cond_refused rows c Hm Hl) as (e & ->). simpl. eauto.
  - destruct (cond_mask columns rows c') as [m|e]; simpl; eauto.
Qed.

Lemma or_refused : forall rows filters h l c, In (Conds l) filters -> In c l -> ~ meaningful columns c -> ~ listed_comparison c ->
  exists e, or_masks columns rows filters h = Err e.
Proof.
  induction filters as [|p fs IH]; intros h l c Hf Hin Hm Hl; [destruct Hf|].
  destruct p as [l'|]; simpl; [|eauto]. destruct Hf as [Hf|Hf].
  - injection Hf as ->. destruct (and_refused rows l (repeat true (length rows)) c Hin Hm Hl) as (e & ->). simpl. eauto.
  - destruct (and_masks columns rows l' _) as [m|e]; simpl; eauto.
Qed.
Lemma or_tuple : forall rows filters h, In ATuple filters -> exists e, or_masks columns rows filters h = Err e.
Proof.
  induction filters as [|p fs IH]; intros h Hf; [destruct Hf|].
  destruct p as [l'|]; simpl; [|eauto]. destruct Hf as [Hf|Hf]; [discriminate|].
  destruct (and_masks columns rows l' _) as [m|e]; simpl; eauto.
Qed.
End Proofs.

(** ** C45 *)

(** Rows kept are those satisfying all conditions of one of the groups, in order. *)
Theorem C45_rows : forall {D} (columns : string -> option (column D)) rows filters, well_formed columns filters ->
  exists mask, dataframe_filter columns rows filters = Ok mask /\ length mask = length rows /\
    kept (accepted columns filters) rows (compress mask rows) /\
    (forall k, nth_error mask k = Some true <-> exists r, nth_error rows k = Some r /\ accepted columns filters r).
Proof.
  intros D columns rows filters H. destruct (filter_ok columns filters H) as (g & A & B). exists (map g rows).
  split; auto. split; [apply map_length|]. split.
  - rewrite compress_map. apply filter_kept. intros x _. apply B.
  - intro k. rewrite nth_error_map. destruct (nth_error rows k) as [r|] eqn:E; simpl.
    + split; [intro Q; injection Q as Q; exists r; split; auto; apply B; auto|].
      intros (r' & Q & Ha). injection Q as <-. f_equal. apply B. auto.
    + split; [discriminate|intros (r & Q & _); discriminate].
Qed.
Print Assumptions C45_rows.

(** Data which is cut in pieces is filtered the same way. *)
Theorem C45_pieces : forall {D} (columns : string -> option (column D)) filters rows1 rows2 m1 m2, well_formed columns filters ->
  dataframe_filter columns rows1 filters = Ok m1 -> dataframe_filter columns rows2 filters = Ok m2 ->
  dataframe_filter columns (rows1 ++ rows2) filters = Ok (m1 ++ m2).
Proof.
  intros D columns filters r1 r2 m1 m2 H E1 E2. destruct (filter_ok columns filters H) as (g & A & _).
  rewrite A in *. injection E1 as <-. injection E2 as <-. rewrite map_app. auto.
Qed.
Print Assumptions C45_pieces.

(** Anything else is refused, whatever the rows: no group, a tuple instead of a list, an unknown
    operator, an unknown column, a value of the wrong kind, the negation of a column of numbers. *)
Theorem C45_refused : forall {D} (columns : string -> option (column D)) rows filters,
  filters = [] \/ In ATuple filters \/
  (exists l c, In (Conds l) filters /\ In c l /\ ~ meaningful columns c /\ ~ listed_comparison c) ->
  exists e, dataframe_filter columns rows filters = Err e.
Proof.
  intros D columns rows filters [->|[H|(l & c & H1 & H2 & H3 & H4)]]; [simpl; eauto| |].
  - unfold dataframe_filter. destruct filters as [|[l|] fs]; eauto. apply or_tuple. auto.
  - unfold dataframe_filter. destruct filters as [|[l'|] fs]; eauto. eapply or_refused; eauto.
Qed.
Print Assumptions C45_refused.

Definition ex_columns (n : string) : option (column (Z * bool)) :=
  if String.eqb n "a" then Some (IntCol fst) else if String.eqb n "b" then Some (BoolCol snd) else None.
Definition ex_frows : list (Z * bool) := [(1, true); (2, false); (3, true); (4, false)].
Definition ex_filters := [Conds [("a", ">=", One 2); ("b", "~", One 0)]; Conds [("a", "in", Many [1; 7])]]%string.
Example ex_C45 : well_formed ex_columns ex_filters /\
  dataframe_filter ex_columns ex_frows ex_filters = Ok [true; true; false; true] /\
  compress [true; true; false; true] ex_frows = [(1, true); (2, false); (4, false)].
Proof.
  split; [|split; reflexivity]. split; [discriminate|]. intros p [<-|[<-|[]]]; eexists; (split; [reflexivity|]).
  - intros c [<-|[<-|[]]]; [apply MCmp; [discriminate|simpl; tauto]|eapply MNot; reflexivity].
  - intros c [<-|[]]. apply MIn; [discriminate|simpl; tauto].
Qed.
Example ex_C45_refused : let c := ("a", "like", One 2)%string in
  ~ meaningful ex_columns c /\ ~ listed_comparison c /\
  dataframe_filter ex_columns ex_frows [Conds []; Conds [c]] = Err ValueError /\
  dataframe_filter ex_columns ex_frows [ATuple] = Err ValueError /\
  dataframe_filter ex_columns [] [Conds [("c", "==", One 2)]]%string = Err KeyError.
Proof.
  cbv zeta. split; [|split; [exact (fun x => x)|repeat split; reflexivity]].
  intro H; inversion H; subst; try discriminate. cbn in *. repeat (match goal with A : _ \/ _ |- _ => destruct A | A : False |- _ => destruct A end; try discriminate).
Qed.

(** An empty group accepts all rows: one of several groups being left empty by mistake makes the whole
    filter accept everything. *)
Theorem C45_empty_group : forall {D} (columns : string -> option (column D)) rows filters, well_formed columns filters ->
  In (Conds []) filters -> exists mask, dataframe_filter columns rows filters = Ok mask /\ compress mask rows = rows.
Proof.
  intros D columns rows filters H Hin. destruct (filter_ok columns filters H) as (g & A & B). exists (map g rows). split; auto.
  rewrite compress_map. assert (Hg : forall r, g r = true) by (intro r; apply B; exists []; split; [auto|intros c []]).
  induction rows as [|x l IH]; simpl; auto. rewrite Hg, IH. auto.
Qed.
Print Assumptions C45_empty_group.

(** A comparison with a list of as many values as there are rows is made row by row: then the filter does
    depend on the way data is cut in pieces. *)
Theorem C45_listed_refuted : exists filters : list or_part,
  dataframe_filter ex_columns ex_frows filters = Ok [false; true; false; false] /\
  dataframe_filter ex_columns (firstn 2 ex_frows) filters = Err ValueError.
Proof. exists [Conds [("a", "==", Many [7; 2; 7; 7])]]%string. split; reflexivity. Qed.
Print Assumptions C45_listed_refuted.
