(** A response made by calls and assignments. *)
From Verif.Model Require Import RustStd Path Request Time Status Response Fields.
From Verif.Spec Require Import Common TextSpec RequestSpec ResponseSpec HistorySpec FieldSpec.
From Verif.Proofs Require Import Basics ResponseExtra ResponseWitness FieldProofs.

Definition assigned : list (world * fop ex_cl) :=
  map (fun f => (ex_world, f))
  [FCall (OpSet (B "Z") (B "1")); FLen (Some 7%N); FCall (OpSend (B "hey")); FHeaders [(B "A", B "1"); (B "C", B "x")];
   FStatus StOk; FCharset (Some (B "latin1")); FReset; FCharset (Some (B "utf-8")); FHeaders [(B "A", B "2")]; FVersion (B "2");
   FCall (OpSend (B "ho")); FStatus StNotFound; FLen None].
Lemma last_at {A V} (sets : A -> V -> Prop) pre a post v : sets a v -> (forall a' v', In a' post -> ~ sets a' v') ->
  last_in sets (pre ++ a :: post) (Some v).
Proof. intros H N. exists pre, a, post. auto. Qed.
Ltac gone := let Y := fresh in intro Y; cbn in Y; try contradiction;
  first [destruct Y as (? & _ & Y); cbn in Y; contradiction | destruct Y as (? & ? & _ & Y); cbn in Y; contradiction
        |destruct Y as (? & _ & Y & _); discriminate Y].
Ltac here n := unfold assigned; cbn [map];
  match goal with |- last_in _ ?l _ => rewrite <- (firstn_skipn n l); cbn [firstn skipn] end; apply last_at;
  [|let X := fresh in intros ? ? X; cbn [In] in X; repeat (destruct X as [<-|X]; [gone|]); destruct X].
Lemma assigned_example :
  Forall is_map assigned /\ Forall harmless assigned /\ Forall plain_call assigned /\ length_unused assigned /\
  last_in puts_status assigned (Some StNotFound) /\ last_in puts_version assigned (Some (B "2")) /\
  last_in puts_charset assigned (Some (Some (B "utf-8"))) /\ last_in puts_body assigned (Some (2%N, RCursor (B "ho"))) /\
  last_in puts_length assigned (Some None) /\ last_in (puts_header (B "A") (gives_header (B "A"))) assigned (Some (Some (B "2"))) /\
  last_in (puts_header (B "Z") (gives_header (B "Z"))) assigned (Some None) /\
  exists r, apply_fops assigned new_empty = Done r /\
    octane_send (get_data default_features ex_world insertion_order [] r) =
    B "HTTP/2 404 NOT FOUND" ++ CRLF ++ B "A: 2" ++ CRLF ++ B "Content-Length: 2" ++ CRLF ++
    B "Date: Fri, 01 Jan 2021 00:00:00 GMT" ++ CRLF ++ B "Content-Type: text/html ;charset=""utf-8""" ++ CRLFCRLF ++ B "ho".
Proof.
  split. { unfold assigned. cbn [map]. repeat (apply Forall_cons; [unfold is_map; cbn; try exact Logic.I|]); [| |apply Forall_nil].
    - constructor; [intros [X|[]]; discriminate X|constructor; [intros []|constructor]].
    - constructor; [intros []|constructor]. }
  split. { unfold assigned. cbn [map]. repeat (apply Forall_cons; [unfold harmless; cbn; first [exact Logic.I|discriminate]|]). apply Forall_nil. }
  split. { unfold assigned. cbn [map]. repeat (apply Forall_cons; [unfold plain_call; cbn; try exact Logic.I; try (split; [exact Logic.I|try (intro X; discriminate X); intro X; exact X])|]); [| |apply Forall_nil].
    - intros [X|[X|[]]]; discriminate X.
    - intros [X|[]]; discriminate X. }
  split. { intros pre w n mid w' post E. exfalso.
    assert (X : In (w', FCall OpDefaultHeaders) assigned).
    { rewrite E. apply in_or_app. right. right. apply in_or_app. right. left. reflexivity. }
    unfold assigned in X. cbn [map] in X. repeat (destruct X as [X|X]; [discriminate X|]). destruct X. }
  split. { here 11. reflexivity. }
  split. { here 9. reflexivity. }
  split. { here 7. reflexivity. }
  split. { here 10. reflexivity. }
  split. { here 12. reflexivity. }
  split. { here 8. cbn. intro x. split; [intro X; injection X as <-; left; reflexivity|intros [X|[]]; injection X as <-; reflexivity]. }
  split. { here 8. cbn. intro x. split; [discriminate|intros [X|[]]; discriminate X]. }
  eexists. split; [vm_compute; reflexivity|vm_compute; reflexivity].
Qed.
Lemma spoiled_example :
  exists r, apply_fops [(ex_world, FCall (OpSend (B "hello"))); (ex_world, FLen (Some 2%N)); (ex_world, FCall OpDefaultHeaders)]
    (new_empty (cl := ex_cl)) = Done r /\ clock ex_world <> None /\
  exists v n p hs, wire_reads (octane_send (get_data default_features ex_world insertion_order [] r)) v n p hs (B "hello") /\
    In (B "Content-Length", B "2") hs.
Proof.
  eexists. split; [vm_compute; reflexivity|]. split; [discriminate|].
  match goal with |- context [octane_send (get_data ?ft ?w ?ho ?pos ?r)] =>
    destruct (round_trip ft w ho pos r (B "hello")) as (hs & P & W) end.
  - right. reflexivity.
  - repeat (apply Forall_cons; [split; [clean_lit|split; [cbn; intro X; repeat (destruct X as [X|X]; [discriminate X|]); exact X|clean_lit]]|]). apply Forall_nil.
  - reflexivity.
  - clean_lit.
  - cbn. intro X. repeat (destruct X as [X|X]; [discriminate X|]); exact X.
  - clean_lit.
  - do 3 eexists. exists hs. split; [exact W|]. eapply Permutation.Permutation_in; [apply Permutation.Permutation_sym; exact P|]. left. reflexivity.
Qed.
