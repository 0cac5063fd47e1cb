(** Proofs that there are no plus/minus labels. *)
From Verif Require Import Base ModelMnemonic ModelExpr ModelAMode ModelInstr ModelToken ModelStatement ModelParse SpecState SpecFlow SpecDisasm SpecListing.
Open Scope list_scope.
Open Scope Z_scope.

Lemma sign_tokens : forall s t, In s sign_labels -> sign_token s t -> In t [TPunct (code "+"); TPunct (code "-"); TPunct P_plusplus; TPunct P_minusminus; TPunct P_plusplusplus; TPunct P_minusminusminus].
Proof. intros s t H T. unfold sign_token in T. cbn [sign_labels In] in H. repeat destruct H as [<-|H]; try contradiction; vm_compute in T; injection T as <-; vm_compute; tauto. Qed.
Lemma sign_label : forall s t names rest, In s sign_labels -> sign_token s t -> exists e, parse (colon_names names ++ t :: rest) = Err e.
Proof.
  intros s t names rest H T. apply (sign_tokens s t H) in T. clear H s. unfold parse.
  assert (G : forall n acc names, (List.length (colon_names names ++ t :: rest) <= n)%nat -> exists e, parse_loop (S n) acc (colon_names names ++ t :: rest) = Err e).
  { clear names. intros n acc names. revert n acc. induction names as [|w names IH]; intros n acc L.
    - exists E_parse. cbn [colon_names app In] in *. repeat destruct T as [<-|T]; try contradiction; reflexivity.
    - cbn [colon_names app List.length] in L. destruct n as [|n]; [lia|]. destruct (IH n (acc ++ [PLabel w false])) as (e & E); [lia|]. exists e. rewrite <- E. reflexivity. }
  apply G. lia.
Qed.
Lemma sign_branch : forall s t m sfx, In s sign_labels -> sign_token s t -> relative_branch m ->
  (exists e, parse (TMnem m :: [t; TEol]) = Err e) /\ exists e, parse (TMnem m :: TSuffix sfx :: [t; TEol]) = Err e.
Proof.
  intros s t m sfx H T M. apply (sign_tokens s t H) in T. clear H s. cbn [In] in T.
  split; exists E_parse; (repeat destruct T as [<-|T]; try contradiction); (unfold relative_branch in M; cbn [In] in M; repeat destruct M as [<-|M]; try contradiction); reflexivity.
Qed.
