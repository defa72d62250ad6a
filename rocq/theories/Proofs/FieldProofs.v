(** Responses determined by calls and assignments. *)
From Verif.Model Require Import RustStd Path Request Time Status Response Fields.
From Verif.Spec Require Import Common TextSpec RequestSpec ResponseSpec HistorySpec FieldSpec.
From Verif.Proofs Require Import Basics ResponseExtra HistoryProofs.

Section FieldHist.
Context {cl : cookie_lib}.
Implicit Types r : response cl.
Local Notation fstep := (@apply_fops cl).

Lemma apply_fops_app l l' : forall r, fstep (l ++ l') r = obind (fstep l r) (fstep l').
Proof.
  induction l as [|[w f] l IH]; intro r; [reflexivity|]. cbn [List.app apply_fops]. destruct (apply_fop w f r); cbn [obind]; auto.
Qed.
Lemma flast {V X} (sets : world * fop cl -> V -> Prop) (part : response cl -> X) (val : V -> X) :
  (forall w f r r', is_map (w, f) -> apply_fop w f r = Done r' ->
     (forall v, sets (w, f) v -> part r' = val v) /\ ((forall v, ~ sets (w, f) v) -> part r' = part r)) ->
  forall l r r' o, Forall is_map l -> fstep l r = Done r' -> last_in sets l o ->
  part r' = match o with Some v => val v | None => part r end.
Proof.
  intro H.
  assert (K : forall l r r', Forall is_map l -> fstep l r = Done r' -> (forall a v, In a l -> ~ sets a v) -> part r' = part r).
  { induction l as [|[w f] l IH]; intros r r' M E N; [injection E as <-; auto|]. inversion M as [|? ? M1 M2]; subst.
    cbn [apply_fops] in E. apply obind_Done in E as (r1 & E1 & E).
    rewrite (IH r1 r' M2 E) by (intros a v Hi; apply N; right; auto).
    apply (H _ _ _ _ M1 E1). intros v. apply N. left. auto. }
  intros l r r' [v|] M E L; [|eapply K; eauto; exact L].
  destruct L as (pre & [w f] & post & -> & S & N). apply Forall_app in M as [_ M]. inversion M as [|? ? M1 M2]; subst.
  rewrite apply_fops_app in E. apply obind_Done in E as (r1 & _ & E).
  cbn [apply_fops] in E. apply obind_Done in E as (r2 & E2 & E).
  rewrite (K post r2 r' M2 E N). apply (H _ _ _ _ M1 E2). exact S.
Qed.
Ltac field_cases f E := destruct f as [o|c0|n0|v0|h|s0|l0|]; cbn [apply_fop] in E; try (injection E as <-).
Ltac simple_part := cbn [snd fst rs_body rs_status rs_content_len rs_version rs_charset rs_cookies response_default new_from_slice res_new];
  split; [intros ? X; try contradiction; try (subst; reflexivity)|intro; try reflexivity; try (exfalso; match goal with K : forall _, ~ _ |- _ => eapply K; reflexivity end)].

Lemma f_status w f r r' : is_map (w, f) -> apply_fop w f r = Done r' ->
  (forall v, puts_status (w, f) v -> rs_status r' = v) /\ ((forall v, ~ puts_status (w, f) v) -> rs_status r' = rs_status r).
Proof. intros _ E. unfold puts_status. field_cases f E; [exact (op_status w o r r' E)|simple_part ..]. Qed.
Lemma f_version w f r r' : is_map (w, f) -> apply_fop w f r = Done r' ->
  (forall v, puts_version (w, f) v -> rs_version r' = v) /\ ((forall v, ~ puts_version (w, f) v) -> rs_version r' = rs_version r).
Proof.
  intros _ E. unfold puts_version. field_cases f E; [|simple_part ..]. cbn [snd].
  destruct (op_vers w o r r' E) as [A1 A2]. unfold sets_version in *. cbn [snd] in *.
  destruct o; try (split; [contradiction|intros _; apply A2; intros ? X; discriminate X]).
  split; [intros x ->; apply A1; reflexivity|intro N; exfalso; eapply N; reflexivity].
Qed.
Lemma f_charset w f r r' : is_map (w, f) -> apply_fop w f r = Done r' ->
  (forall v, puts_charset (w, f) v -> rs_charset r' = v) /\ ((forall v, ~ puts_charset (w, f) v) -> rs_charset r' = rs_charset r).
Proof.
  intros _ E. unfold puts_charset. field_cases f E; [|simple_part ..]. cbn [snd].
  destruct (op_chars w o r r' E) as [A1 A2]. unfold sets_charset in *. cbn [snd] in *.
  destruct o; try (split; [contradiction|intros _; apply A2; intros ? X; discriminate X]).
  split; [intros x ->; apply A1; reflexivity|intro N; exfalso; eapply N; reflexivity].
Qed.
Lemma f_body w f r r' : is_map (w, f) -> apply_fop w f r = Done r' ->
  (forall v, puts_body (w, f) v -> rs_body r' = BodySized (fst v) (snd v)) /\
  ((forall v, ~ puts_body (w, f) v) -> rs_body r' = rs_body r).
Proof.
  intros _ E. unfold puts_body. field_cases f E; [|simple_part ..]. cbn [snd fst].
  destruct (op_body w o r r' E) as [A1 A2]. split.
  - intros v X. specialize (A1 v X). congruence.
  - intro N. specialize (A2 N). congruence.
Qed.
Lemma f_length w f r r' : is_map (w, f) -> apply_fop w f r = Done r' ->
  (forall v, puts_length (w, f) v -> rs_content_len r' = v) /\
  ((forall v, ~ puts_length (w, f) v) -> rs_content_len r' = rs_content_len r).
Proof.
  intros _ E. unfold puts_length, puts_body.
  field_cases f E; cbn [snd fst rs_content_len response_default new_from_slice res_new];
    try (split; [intros ? (? & ? & _ & [])|intros _; reflexivity]).
  - destruct (op_body w o r r' E) as [A1 A2]. split.
    + intros v (m & rd & -> & X). specialize (A1 _ X). cbn [fst snd] in A1. congruence.
    + intro N. assert (X : forall v, ~ gives_body (w, o) v).
      { intros [m rd] Y. eapply N. exists m, rd. split; [reflexivity|exact Y]. }
      specialize (A2 X). congruence.
  - split; [intros ? ->; reflexivity|intro N; exfalso; eapply N; reflexivity].
  - split; [intros v (m & rd & -> & X)|intro N; exfalso; eapply N; exists 0%N, (RCursor []); split; reflexivity].
    injection X as -> _. reflexivity.
Qed.
Lemma map_lookup k (h : list (str * str)) v : NoDup (map fst h) -> (forall x, v = Some x <-> In (k, x) h) -> mget seqb k h = v.
Proof.
  intros N X. destruct v as [x|].
  - apply (In_mget seqb seqb_eq); [exact N|]. apply X. reflexivity.
  - destruct (mget seqb k h) as [x|] eqn:E; [|reflexivity]. apply (mget_In seqb seqb_eq) in E. apply X in E. discriminate E.
Qed.
Lemma lookup_map k (h : list (str * str)) : NoDup (map fst h) -> forall x, mget seqb k h = Some x <-> In (k, x) h.
Proof. intros N x. split; [apply (mget_In seqb seqb_eq)|apply (In_mget seqb seqb_eq); exact N]. Qed.
Lemma f_header k (by_call : world * rop cl -> str -> Prop) :
  (forall w o r r', apply_op w o r = Done r' -> (forall v, by_call (w, o) v -> res_get k r' = Some v) /\
     ((forall v, ~ by_call (w, o) v) -> res_get k r' = res_get k r)) ->
  forall w f r r', is_map (w, f) -> apply_fop w f r = Done r' ->
  (forall v, puts_header k by_call (w, f) v -> res_get k r' = v) /\
  ((forall v, ~ puts_header k by_call (w, f) v) -> res_get k r' = res_get k r).
Proof.
  intros H w f r r' M E. unfold puts_header, is_map in *. cbn [snd fst] in *.
  field_cases f E; unfold res_get; cbn [rs_headers response_default new_from_slice res_new]; try (split; [contradiction|intros _; reflexivity]).
  - destruct (H w o r r' E) as [A1 A2]. split.
    + intros v (x & -> & X). apply A1. exact X.
    + intro N. apply A2. intros x X. eapply N. exists x. split; [reflexivity|exact X].
  - split; [intros v X; apply map_lookup; assumption|]. intro N. exfalso. apply (N (mget seqb k h)). apply lookup_map. exact M.
  - split; [intros v ->; reflexivity|]. intro N. exfalso. apply (N None). reflexivity.
Qed.
Lemma cookies_kept l : forall r r', fstep l r = Done r' -> (forall c k, In c l -> ~ puts_cookies c k) ->
  rs_cookies r' = rs_cookies r ++ cookies_added l.
Proof.
  induction l as [|[w f] l IH]; intros r r' E N; [injection E as <-; symmetry; apply app_nil_r|].
  cbn [apply_fops] in E. apply obind_Done in E as (r1 & E1 & E). rewrite (IH r1 r' E) by (intros c k X; apply N; right; exact X).
  unfold cookies_added. cbn [flat_map snd]. rewrite app_assoc. f_equal.
  specialize (N (w, f)). unfold puts_cookies in N. cbn [snd] in N.
  field_cases f E1; try (symmetry; apply app_nil_r); try (exfalso; eapply N; [left; reflexivity|reflexivity]).
  pose proof (cookies_made [(w, o)] r r1) as K. cbn [apply_ops] in K. rewrite E1 in K. cbn [obind] in K. rewrite (K eq_refl).
  unfold cookies_given. cbn [flat_map snd]. rewrite app_nil_r. reflexivity.
Qed.
Theorem fields_left l r r' : Forall is_map l -> fstep l r = Done r' -> left_by r l r'.
Proof.
  intros M E. constructor.
  - intros o L. exact (flast puts_status rs_status (fun s => s) f_status l r r' o M E L).
  - intros o L. exact (flast puts_version rs_version (fun s => s) f_version l r r' o M E L).
  - intros o L. exact (flast puts_charset rs_charset (fun s => s) f_charset l r r' o M E L).
  - intros o L. pose proof (flast puts_body rs_body (fun v => BodySized (fst v) (snd v)) f_body l r r' o M E L) as P.
    destruct o as [[n rd]|]; exact P.
  - intros o L. exact (flast puts_length rs_content_len (fun s => s) f_length l r r' o M E L).
  - intros k o Ho L. exact (flast _ (res_get k) (fun s => s) (f_header k (gives_header k) (fun w o r r' => op_header k w o r r' Ho)) l r r' o M E L).
  - intros o L. exact (flast _ (res_get (B "Date")) (fun s => s) (f_header (B "Date") gives_date op_date) l r r' o M E L).
  - intros base pre post -> N [[-> ->]|(q & c & -> & P)].
    + apply cookies_kept; [exact E|exact N].
    + rewrite apply_fops_app in E. apply obind_Done in E as (r1 & E1 & E). rewrite (cookies_kept post r1 r' E N). f_equal.
      rewrite apply_fops_app in E1. apply obind_Done in E1 as (r0 & _ & E1). destruct c as [w f]. cbn [apply_fops] in E1.
      apply obind_Done in E1 as (r2 & E2 & X). injection X as ->. unfold puts_cookies in P. cbn [snd] in P.
      field_cases f E2; try contradiction; subst; reflexivity.
Qed.

(** Content-Length *)
Lemma f_no_length w f r r' : apply_fop w f r = Done r' -> ~ may_set_length (w, f) -> res_get CLEN r' = res_get CLEN r.
Proof.
  intros E N. unfold may_set_length in N. cbn [snd fst] in N. field_cases f E; try reflexivity; try (destruct N; exact Logic.I).
  exact (op_no_length w o r r' E N).
Qed.
Theorem field_length pre w o post r r' n : Forall is_map (pre ++ (w, FCall o) :: post) ->
  fstep (pre ++ (w, FCall o) :: post) r = Done r' -> fills_in o = true -> (forall c, In c post -> ~ may_set_length c) ->
  last_in puts_length (pre ++ [(w, FCall o)]) (Some (Some n)) \/
  (last_in puts_length (pre ++ [(w, FCall o)]) None /\ rs_content_len r = Some n) ->
  exists s, res_get CLEN r' = Some s /\ decimal n s.
Proof.
  intros M E Fo N L. exists (show_N n). split; [|apply show_N_decimal].
  replace (pre ++ (w, FCall o) :: post) with ((pre ++ [(w, FCall o)]) ++ post) in E, M by (rewrite <- app_assoc; reflexivity).
  apply Forall_app in M as [M _]. rewrite apply_fops_app in E. apply obind_Done in E as (r1 & E1 & E2).
  assert (K : res_get CLEN r' = res_get CLEN r1).
  { clear - N E2. revert r1 E2. induction post as [|[w f] post IH]; intros r1 E; [injection E as <-; auto|].
    cbn [apply_fops] in E. apply obind_Done in E as (r2 & E1 & E).
    rewrite (IH ltac:(intros; apply N; right; auto) _ E). eapply f_no_length; eauto. apply N. left. auto. }
  rewrite K. clear K E2 N.
  pose proof (fields_left _ _ _ M E1) as Z. pose proof (left_length _ _ _ Z) as ZL.
  assert (C1 : rs_content_len r1 = Some n) by (destruct L as [L|[L C]]; apply ZL in L as ->; auto).
  rewrite apply_fops_app in E1. apply obind_Done in E1 as (r0 & _ & E1). cbn [apply_fops apply_fop] in E1.
  apply obind_Done in E1 as (r1' & E1 & X). injection X as ->.
  destruct o; try discriminate; cbn [apply_op] in E1.
  - unfold res_send in E1. pose proof (default_get _ _ _ CLEN E1) as (_ & G & _).
    apply default_headers_spec in E1 as (_ & _ & El & _). cbn [rs_content_len] in *.
    unfold res_get. rewrite (G eq_refl). rewrite El in C1. injection C1 as ->. reflexivity.
  - pose proof (default_get _ _ _ CLEN E1) as (_ & G & _).
    apply default_headers_spec in E1 as (_ & _ & El & _).
    unfold res_get. rewrite (G eq_refl). rewrite El in C1. rewrite C1. reflexivity.
Qed.

(** The content type *)
Lemma f_ctype w f r r' : is_map (w, f) -> apply_fop w f r = Done r' ->
  (exists v, puts_type (w, f) v /\ res_get CTYPE r' = v) \/
  ((forall v, ~ puts_type (w, f) v) /\
   match res_get CTYPE r with
   | Some t => res_get CTYPE r' = Some t
   | None => (fills (w, f) -> res_get CTYPE r' = Some (default_type (dbg_sq w) (rs_charset r))) /\
             (~ fills (w, f) -> res_get CTYPE r' = None)
   end).
Proof.
  intros M E. unfold puts_type, puts_header, is_map, fills in *. cbn [snd fst] in *.
  assert (K : forall (P : Prop), (P -> False) -> match res_get CTYPE r with
     | Some t => res_get CTYPE r = Some t
     | None => (P -> res_get CTYPE r = Some (default_type (dbg_sq w) (rs_charset r))) /\ (~ P -> res_get CTYPE r = None)
     end).
  { intros P X. destruct (res_get CTYPE r); [reflexivity|]. split; [intro Y; destruct (X Y)|reflexivity]. }
  field_cases f E; try (right; split; [intros v1 X; exact X|apply K; intro X; exact X]).
  - destruct (op_ctype w o r r' E) as [(t & C & G)|(C & _ & G)].
    + left. exists (Some t). split; [exists t; split; [reflexivity|exact C]|exact G].
    + right. split; [intros v (x & _ & X); exact (C x X)|]. destruct (fills_in o), (res_get CTYPE r) as [t|]; try exact G;
      (split; intro X; try exact G; try discriminate X; destruct X; reflexivity).
  - left. exists (mget seqb CTYPE h). split; [apply lookup_map; exact M|reflexivity].
  - left. exists None. split; reflexivity.
Qed.
Lemma type_none l : forall r r', fstep l r = Done r' -> Forall is_map l -> (forall c v, In c l -> ~ puts_type c v) ->
  (forall c, In c l -> ~ fills c) -> res_get CTYPE r' = res_get CTYPE r.
Proof.
  induction l as [|[w f] l IH]; intros r r' E M N F; [injection E as <-; reflexivity|]. inversion M as [|? ? M1 M2]; subst.
  cbn [apply_fops] in E. apply obind_Done in E as (r1 & E1 & E).
  rewrite (IH r1 r' E M2) by (intros; first [apply N|apply F]; right; assumption).
  destruct (f_ctype w f r r1 M1 E1) as [(v & X & _)|(_ & X)]; [exfalso; eapply N; [left; reflexivity|exact X]|].
  destruct (res_get CTYPE r); [exact X|]. apply X. apply F. left. reflexivity.
Qed.
Lemma type_kept l : forall r r' t, fstep l r = Done r' -> Forall is_map l -> (forall c v, In c l -> ~ puts_type c v) ->
  res_get CTYPE r = Some t -> res_get CTYPE r' = Some t.
Proof.
  induction l as [|[w f] l IH]; intros r r' t E M N G; [injection E as <-; exact G|]. inversion M as [|? ? M1 M2]; subst.
  cbn [apply_fops] in E. apply obind_Done in E as (r1 & E1 & E).
  eapply IH; [exact E|exact M2|intros c v X; apply N; right; exact X|].
  destruct (f_ctype w f r r1 M1 E1) as [(v & X & _)|(_ & X)]; [exfalso; eapply N; [left; reflexivity|exact X]|].
  rewrite G in X. exact X.
Qed.
(** The type the application gave last. *)
Theorem field_type_given l r r' t : Forall is_map l -> fstep l r = Done r' -> last_in puts_type l (Some (Some t)) ->
  res_get CTYPE r' = Some t.
Proof.
  intros M E (pre & [w f] & post & -> & P & N). apply Forall_app in M as [_ M]. inversion M as [|? ? M1 M2]; subst.
  rewrite apply_fops_app in E. apply obind_Done in E as (r1 & _ & E). cbn [apply_fops] in E. apply obind_Done in E as (r2 & E2 & E).
  eapply type_kept; [exact E|exact M2|exact N|].
  assert (U : forall v, puts_type (w, f) v -> v = Some t).
  { intro v. unfold puts_type, puts_header in *. cbn [snd fst] in *. destruct f; try contradiction; try congruence.
    - destruct P as (x & P0 & P). injection P0 as <-. intros (y & -> & Y). f_equal. clear - P Y. destruct o; cbn in *; try contradiction; try congruence.
      + destruct P, Y; congruence.
      + destruct P as (? & ? & ? & ->), Y as (? & ? & ? & ->). reflexivity.
    - intro X. apply X. apply P. reflexivity. }
  destruct (f_ctype w f r1 r2 M1 E2) as [(v & X & G)|(X & _)]; [rewrite G; apply U; exact X|exfalso; eapply X; exact P].
Qed.
(** No type: the first filling-in afterwards gives the default one. *)
Theorem field_type_default pre mid w o post r r' : Forall is_map (pre ++ mid ++ (w, FCall o) :: post) ->
  fstep (pre ++ mid ++ (w, FCall o) :: post) r = Done r' ->
  (pre = [] /\ res_get CTYPE r = None) \/ (exists q c, pre = q ++ [c] /\ puts_type c None) ->
  (forall c v, In c (mid ++ (w, FCall o) :: post) -> ~ puts_type c v) -> (forall c, In c mid -> ~ fills c) -> fills_in o = true ->
  forall s, last_in puts_charset (pre ++ mid) s ->
  res_get CTYPE r' = Some (default_type (dbg_sq w) (match s with Some x => x | None => rs_charset r end)).
Proof.
  intros M E P N F Fo s L.
  assert (M' := M). rewrite app_assoc in M'. apply Forall_app in M' as [Mpm Mp]. inversion Mp as [|? ? M1 M2]; subst.
  rewrite app_assoc, apply_fops_app in E. apply obind_Done in E as (r1 & E1 & E).
  pose proof (left_charset _ _ _ (fields_left _ _ _ Mpm E1) s L) as C.
  assert (T : res_get CTYPE r1 = None).
  { apply Forall_app in Mpm as [Ma Mb]. rewrite apply_fops_app in E1. apply obind_Done in E1 as (r0 & E0 & E1).
    rewrite (type_none mid r0 r1 E1 Mb); [|intros c v X; apply N; apply in_or_app; left; exact X|exact F].
    destruct P as [[-> G]|(q & [w' f] & -> & P)]; [injection E0 as <-; exact G|].
    rewrite apply_fops_app in E0. apply obind_Done in E0 as (r2 & _ & E0). cbn [apply_fops] in E0.
    apply obind_Done in E0 as (r3 & E3 & X). injection X as ->. apply Forall_app in Ma as [_ Ma]. inversion Ma as [|? ? Mc _]; subst.
    unfold puts_type, puts_header, is_map in *. cbn [snd fst] in *. destruct f as [o1|c0|n0|v0|h|s0|l0|]; cbn [apply_fop] in E3; try (injection E3 as <-); try contradiction.
    - destruct P as (x & X & _). discriminate X.
    - apply map_lookup; [exact Mc|]. exact P.
    - reflexivity. }
  cbn [apply_fops] in E. apply obind_Done in E as (r2 & E2 & E).
  eapply type_kept; [exact E|exact M2|intros c v X; apply N; apply in_or_app; right; right; exact X|].
  destruct (f_ctype w (FCall o) r1 r2 M1 E2) as [(v & X & _)|(_ & X)]; [exfalso; eapply N; [apply in_or_app; right; left; reflexivity|exact X]|].
  rewrite T in X. rewrite <- C. apply X. exact Fo.
Qed.

(** The length and the body *)
Definition clen_good r : Prop :=
  exists body, given_body (rs_body r) body /\ forall s, res_get CLEN r = Some s -> decimal (N.of_nat (length body)) s.
Definition field_good r : Prop :=
  exists body, given_body (rs_body r) body /\ forall n, rs_content_len r = Some n -> n = N.of_nat (length body).
Lemma default_good w r r' : clen_good r -> field_good r -> default_headers w r = Done r' -> clen_good r'.
Proof.
  intros (b & G & C) (b' & G' & D) E. pose proof (default_get _ _ _ CLEN E) as (_ & X & _). specialize (X eq_refl).
  apply default_headers_spec in E as (Eb & _). exists b. rewrite Eb. split; [exact G|]. intros s Hs. unfold res_get in *. rewrite X in Hs.
  destruct (rs_content_len r) as [n|]; [|apply C; exact Hs]. injection Hs as <-.
  assert (b' = b) as -> by (clear - G G'; destruct (rs_body r) as [| ? []|[]]; cbn in *; try contradiction; congruence).
  rewrite (D n eq_refl). apply show_N_decimal.
Qed.
Lemma no_file_fails w p r r' : (forall len content, fs w p <> FsFile len content) -> apply_op w (OpSendFile p) r = Done r' -> r' = r.
Proof.
  intros N E. cbn [apply_op] in E. apply send_file_inv in E as [[-> _]|(len & c & Ef & _)]; [reflexivity|]. exfalso. eapply N. exact Ef.
Qed.
Lemma f_good w f r r' : plain_call (w, f) -> apply_fop w f r = Done r' -> clen_good r ->
  (field_good r \/ snd (w, f) <> FCall OpDefaultHeaders) -> clen_good r'.
Proof.
  intros P E G D. unfold plain_call in P. cbn [snd fst] in *.
  field_cases f E; try exact G.
  - destruct P as [P Q].
    assert (Go : forall k v (m : list (str * str)), CLEN <> k -> mget seqb CLEN (mset seqb k v m) = mget seqb CLEN m)
      by (intros; apply (mget_mset_other seqb seqb_eq); auto).
    destruct o; cbn [apply_op] in E; try (injection E as <-; exact G); try (injection E as <-).
    + destruct G as (b & G & C). exists b. split; [exact G|]. intros s X. apply C. revert X. unfold res_get, res_set, with_headers. cbn [rs_headers].
      rewrite Go; [auto|]. intro Y. apply Q. cbn. symmetry. exact Y.
    + unfold res_send in E. pose proof (default_get _ _ _ CLEN E) as (_ & X & _). specialize (X eq_refl).
      apply default_headers_spec in E as (Eb & _). cbn [rs_body rs_content_len] in *. exists body. rewrite Eb. split; [reflexivity|].
      intros s Hs. unfold res_get in Hs. rewrite X in Hs. injection Hs as <-. apply show_N_decimal.
    + destruct D as [D|D]; [|destruct D; reflexivity]. eapply default_good; eauto.
    + destruct G as (b & G & C). exists b. split; [exact G|]. intros s X. apply C. revert X. unfold res_get, with_type, res_set, with_headers. cbn [rs_headers].
      rewrite Go; [auto|discriminate].
    + rewrite (no_file_fails w path r r' P E). exact G.
    + destruct G as (b & G & C). exists b. split; [exact G|]. intros s X. apply C. revert X. unfold res_get, attachment, res_set, with_headers. cbn [rs_headers].
      rewrite Go; [auto|discriminate].
    + destruct G as (b & G & C). exists b. split; [exact G|]. intros s X. apply C. revert X.
      unfold res_get, attachment_with_filename, res_set, with_headers. cbn [rs_headers]. rewrite !Go; [auto|discriminate ..].
    + destruct G as (b & G & C). exists b. split; [exact G|]. intros s X. apply C. revert X. unfold res_get, redirect, res_set, with_headers, set_status. cbn [rs_headers].
      rewrite Go; [auto|discriminate].
  - destruct G as (b & G & _). exists b. split; [exact G|]. unfold res_get. cbn [rs_headers]. intros s X. destruct P.
    apply (mget_In seqb seqb_eq) in X. apply in_map_iff. exists (CLEN, s). auto.
  - exists []. split; [reflexivity|]. intros s X. discriminate X.
Qed.
Lemma f_clean w f r r' : plain_call (w, f) -> apply_fop w f r = Done r' -> (forall n, f <> FLen n) -> field_good r -> field_good r'.
Proof.
  intros P E N G. unfold plain_call in P. cbn [snd fst] in *. field_cases f E; try exact G.
  - destruct P as [P _]. destruct o; cbn [apply_op] in E; try (injection E as <-; exact G).
    + unfold res_send in E. apply default_headers_spec in E as (Eb & _ & El & _). cbn [rs_body rs_content_len] in *.
      exists body. rewrite Eb, El. split; [reflexivity|]. intros n X. injection X as <-. reflexivity.
    + apply default_headers_spec in E as (Eb & _ & El & _). destruct G as (b & G & C). exists b. rewrite Eb, El. split; [exact G|exact C].
    + rewrite (no_file_fails w path r r' P E). exact G.
  - destruct (N n0). reflexivity.
  - exists []. split; [reflexivity|]. cbn [rs_content_len response_default new_from_slice res_new]. intros n X. injection X as <-. reflexivity.
Qed.
Lemma f_anew w f r r' : apply_fop w f r = Done r' -> gives_anew (w, f) -> field_good r'.
Proof.
  intros E G. unfold gives_anew in G. cbn [snd] in G. field_cases f E; try contradiction.
  - destruct o; try contradiction. cbn [apply_op] in E. unfold res_send in E. apply default_headers_spec in E as (Eb & _ & El & _).
    cbn [rs_body rs_content_len] in *. exists body. rewrite Eb, El. split; [reflexivity|]. intros n X. injection X as <-. reflexivity.
  - exists []. split; [reflexivity|]. cbn [rs_content_len response_default new_from_slice res_new]. intros n X. injection X as <-. reflexivity.
Qed.
Lemma unused_tail (c : world * fop cl) l : length_unused (c :: l) -> length_unused l.
Proof. intros U pre w n mid w' post ->. apply (U (c :: pre) w n mid w' post). reflexivity. Qed.
(** The next [default_headers] comes after the body is given anew. *)
Definition waits (l : list (world * fop cl)) : Prop :=
  forall mid w' post, l = mid ++ (w', FCall OpDefaultHeaders) :: post -> exists c, In c mid /\ gives_anew c.
Lemma fs_good l : forall r r', Forall plain_call l -> length_unused l -> clen_good r -> field_good r \/ waits l -> fstep l r = Done r' ->
  clen_good r'.
Proof.
  induction l as [|[w f] l IH]; intros r r' P U G D E; [injection E as <-; exact G|]. inversion P as [|? ? P1 P2]; subst.
  cbn [apply_fops] in E. apply obind_Done in E as (r1 & E1 & E).
  assert (ND : field_good r \/ snd (w, f) <> FCall OpDefaultHeaders).
  { destruct D as [D|D]; [left; exact D|]. right. cbn [snd]. intros ->. destruct (D [] w l eq_refl) as (c & [] & _). }
  assert (G1 : clen_good r1) by (eapply f_good; eauto).
  apply (IH r1 r' P2 (unused_tail _ _ U) G1); [|exact E].
  assert (FD : (exists n, f = FLen n) \/ forall n, f <> FLen n) by (destruct f; try (right; discriminate); left; eauto).
  destruct FD as [[n ->]|FD].
  { right. intros mid w' post ->. apply (U [] w n mid w' post). reflexivity. }
  destruct D as [D|D]; [left; eapply f_clean; eauto|].
  assert (AD : gives_anew (w, f) \/ ~ gives_anew (w, f)) by (unfold gives_anew; cbn [snd]; destruct f as [[]| | | | | | |]; tauto).
  destruct AD as [A|A]; [left; eapply f_anew; eauto|].
  right. intros mid w' post ->. destruct (D ((w, f) :: mid) w' post eq_refl) as (c & [<-|X] & Y); [destruct (A Y)|eauto].
Qed.
Theorem field_agree l r r' : r = new_empty \/ (exists b, r = new_from_slice b) -> Forall plain_call l -> length_unused l ->
  fstep l r = Done r' -> forall s, res_get CLEN r' = Some s ->
  forall ft w ho pos, exists body, octane_send (get_data ft w ho pos r') = fst (get_data ft w ho pos r') ++ body /\
  decimal (N.of_nat (length body)) s.
Proof.
  intros S P U E s Hs ft w ho pos.
  assert (G : clen_good r /\ field_good r).
  { destruct S as [->|[b ->]].
    - split; exists []; (split; [reflexivity|intros ? X; discriminate X]).
    - split; exists b; (split; [reflexivity|]); [intros ? X; discriminate X|]. cbn. intros n X. injection X as <-. reflexivity. }
  destruct G as [G D]. destruct (fs_good l r r' P U G (or_introl D) E) as (b & Gb & C).
  exists b. split; [apply given_transmitted; exact Gb|apply C; exact Hs].
Qed.
(** An assigned length is announced, whatever the body. *)
Theorem length_spoiled w w' body n r : clock w <> None -> clock w' <> None ->
  exists r', fstep [(w, FCall (OpSend body)); (w, FLen (Some n)); (w', FCall OpDefaultHeaders)] r = Done r' /\
  (exists s, res_get CLEN r' = Some s /\ decimal n s) /\
  forall ft v ho pos, octane_send (get_data ft v ho pos r') = fst (get_data ft v ho pos r') ++ body.
Proof.
  intros C C'. cbn [apply_fops apply_fop apply_op]. unfold res_send.
  match goal with |- context [default_headers w ?x] => destruct (proj2 (default_done w x) C) as (r1 & E1) end.
  rewrite E1. cbn [obind].
  match goal with |- context [default_headers w' ?x] => destruct (proj2 (default_done w' x) C') as (r2 & E2) end.
  rewrite E2. cbn [obind]. exists r2. split; [reflexivity|].
  pose proof (default_get _ _ _ CLEN E2) as (_ & X & _). specialize (X eq_refl). cbn [rs_content_len] in X.
  split; [exists (show_N n); split; [exact X|apply show_N_decimal]|].
  apply default_headers_spec in E1 as (Eb1 & _). apply default_headers_spec in E2 as (Eb2 & _). cbn [rs_body] in *.
  intros. apply given_transmitted. rewrite Eb2, Eb1. reflexivity.
Qed.
Theorem fields_safe l : forall r, (exists r', fstep l r = Done r') <-> Forall harmless l.
Proof.
  induction l as [|[w f] l IH]; intro r; [split; [constructor|intros _; exists r; reflexivity]|]. cbn [apply_fops].
  assert (K : (exists r1, apply_fop w f r = Done r1) <-> harmless (w, f)).
  { unfold harmless. cbn [snd fst]. destruct f; cbn [apply_fop]; try (split; eauto; fail). apply op_done. }
  split.
  - intros (r' & E). apply obind_Done in E as (r1 & E1 & E). constructor; [apply K; eauto|]. apply (IH r1). eauto.
  - intro F. inversion F as [|? ? S1 S2]; subst. apply K in S1 as (r1 & ->). cbn [obind]. apply IH. exact S2.
Qed.
End FieldHist.
