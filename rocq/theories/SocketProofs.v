(** * SocketProofs.v *)
From Coq Require Import String Ascii NArith Lia.
From stdpp Require Import strings list.
From Verif Require Import Go Errors Socket Spec_Socket.

(*@file Prop_Socket.v
From Coq Require Import String Ascii NArith.
From stdpp Require Import strings list.
From Verif Require Import Go Errors Socket Spec_Socket. @*)

Lemma str_app_assoc (a b c : string) : ((a ++ b) ++ c)%string = (a ++ (b ++ c))%string.
Proof. induction a as [|x a IH]; [done|]. change (String x ((a ++ b) ++ c) = String x (a ++ (b ++ c)))%string. by rewrite IH. Qed.

Lemma control_op f : control_ok f -> (fr_op f =? OpClose)%N = false /\ IsControl (fr_op f) = true /\
  fr_handled f = None /\ (forall frag, CheckHeader frag f = None).
Proof.
  intros (Hop & Hfin & Hlen & Hh).
  assert (Hl : (125 <? String.length (fr_data f)) = false) by (apply Nat.ltb_ge; lia).
  unfold CheckHeader. rewrite Hfin, Hl. destruct Hop as [-> | ->]; repeat split; done.
Qed.

Lemma op_cases op : IsReserved op = false -> op = 0%N \/ op = 1%N \/ op = 2%N \/ op = 8%N \/ op = 9%N \/ op = 10%N.
Proof.
  unfold IsReserved. intros H. apply orb_false_iff in H as [H1 H2]. apply N.leb_gt in H2.
  apply andb_false_iff in H1 as [H1|H1]; apply N.leb_gt in H1; lia.
Qed.

Section g.
Variable utf8 : string -> bool.

Lemma read_rest_spec text fs e : forall acc b rest,
  read_rest utf8 text acc fs e = inl (b, rest) <->
  exists block s, fs = block ++ rest /\ continues block s /\ b = (acc ++ s)%string /\ (text = true -> utf8 b = true).
Proof.
  induction fs as [|f fs IH]; intros acc b rest.
  - split.
    + cbn. done.
    + intros (block & s & Hf & Hc & _). destruct Hc; discriminate Hf.
  - cbn [read_rest NextFrame]. destruct (CheckHeader true f) as [err|] eqn:Eh.
    { split; [done|]. intros (block & s & Hf & Hc & _). exfalso.
      destruct Hc as [g Ho Hfin|g fs' s Ho Hfin Hc|g fs' s Hg Hc]; injection Hf as -> ->.
      - unfold CheckHeader in Eh. rewrite Ho in Eh. discriminate Eh.
      - unfold CheckHeader in Eh. rewrite Ho in Eh. discriminate Eh.
      - destruct (control_op _ Hg) as (_ & _ & _ & H). rewrite H in Eh. discriminate Eh. }
    assert (Hcase : fr_op f = OpContinuation \/ fr_op f = OpClose \/
      ((fr_op f = OpPing \/ fr_op f = OpPong) /\ fr_fin f = true /\ String.length (fr_data f) <= 125)).
    { unfold CheckHeader in Eh. destruct (IsReserved (fr_op f)) eqn:Er; [discriminate Eh|].
      apply op_cases in Er. destruct (IsControl (fr_op f)) eqn:Ec.
      - destruct (fr_fin f); [|discriminate Eh]. cbn [negb] in Eh.
        destruct (Nat.ltb_spec 125 (String.length (fr_data f))) as [Hl|Hl]; [discriminate Eh|].
        destruct Er as [Er|[Er|[Er|[Er|[Er|Er]]]]]; rewrite Er in Ec |- *; try discriminate Ec; [by right; left|right; right; split; [by left|done]|right; right; split; [by right|done]].
      - destruct (N.eqb_spec (fr_op f) OpContinuation) as [->|]; [by left|discriminate Eh]. }
    destruct Hcase as [Ho|[Ho|(Ho & Hfin & Hlen)]].
    + rewrite Ho. change (IsControl OpContinuation) with false. cbv iota.
      destruct (fr_fin f) eqn:Hfin.
      * destruct (text && negb (utf8 (acc ++ fr_data f))) eqn:Eu.
        -- split; [done|]. intros (block & s & Hf & Hc & Hb & Hu). exfalso.
           destruct Hc as [g Hog Hfg|g fs' s Hog Hfg Hc|g fs' s Hg Hc]; injection Hf as -> ->.
           ++ apply andb_true_iff in Eu as [Et Eu]. rewrite <- Hb, (Hu Et) in Eu. discriminate Eu.
           ++ congruence.
           ++ destruct (control_op _ Hg) as (_ & H & _). rewrite Ho in H. discriminate H.
        -- split.
           ++ intros [= <- <-]. exists [f], (fr_data f). split; [done|]. split; [by constructor|]. split; [done|].
              intros ->. cbn in Eu. by destruct (utf8 _).
           ++ intros (block & s & Hf & Hc & Hb & Hu).
              destruct Hc as [g Hog Hfg|g fs' s Hog Hfg Hc|g fs' s Hg Hc]; injection Hf as -> ->.
              ** by rewrite Hb.
              ** congruence.
              ** destruct (control_op _ Hg) as (_ & H & _). rewrite Ho in H. discriminate H.
      * rewrite IH. split.
        -- intros (block & s & -> & Hc & -> & Hu). exists (f :: block), (fr_data f ++ s)%string.
           split; [done|]. split; [by constructor|]. split; [by rewrite str_app_assoc|done].
        -- intros (block & s & Hf & Hc & Hb & Hu).
           destruct Hc as [g Hog Hfg|g fs' s Hog Hfg Hc|g fs' s Hg Hc]; injection Hf as -> ->.
           ++ congruence.
           ++ exists fs', s. split; [done|]. split; [done|]. split; [by rewrite Hb, str_app_assoc|done].
           ++ destruct (control_op _ Hg) as (_ & H & _). rewrite Ho in H. discriminate H.
    + rewrite Ho. change (IsControl OpClose) with true. change (OpClose =? OpClose)%N with true. cbv iota.
      split; [done|]. intros (block & s & Hf & Hc & _). exfalso.
      destruct Hc as [g Hog Hfg|g fs' s Hog Hfg Hc|g fs' s Hg Hc]; injection Hf as -> ->.
      * rewrite Ho in Hog. discriminate Hog.
      * rewrite Ho in Hog. discriminate Hog.
      * destruct Hg as ([Hg|Hg] & _); rewrite Ho in Hg; discriminate Hg.
    + assert (Hctl : IsControl (fr_op f) = true) by (by destruct Ho as [-> | ->]).
      assert (Hcl : (fr_op f =? OpClose)%N = false) by (by destruct Ho as [-> | ->]).
      rewrite Hctl, Hcl. destruct (fr_handled f) as [err|] eqn:Ehd.
      * split; [done|]. intros (block & s & Hf & Hc & _). exfalso.
        destruct Hc as [g Hog Hfg|g fs' s Hog Hfg Hc|g fs' s Hg Hc]; injection Hf as -> ->.
        -- rewrite Hog in Hctl. discriminate Hctl.
        -- rewrite Hog in Hctl. discriminate Hctl.
        -- destruct Hg as (_ & _ & _ & Hg). congruence.
      * rewrite IH. split.
        -- intros (block & s & -> & Hc & -> & Hu). exists (f :: block), s.
           split; [done|]. split; [by apply cont_control|done].
        -- intros (block & s & Hf & Hc & Hb & Hu).
           destruct Hc as [g Hog Hfg|g fs' s Hog Hfg Hc|g fs' s Hg Hc]; injection Hf as -> ->.
           ++ rewrite Hog in Hctl. discriminate Hctl.
           ++ rewrite Hog in Hctl. discriminate Hctl.
           ++ by exists fs', s.
Qed.

Lemma message_head fs t s : message_frames utf8 fs t s -> exists f rest, fs = f :: rest /\ fr_op f = t /\ (t = OpText \/ t = OpBinary).
Proof. intros [f t' s' Ht Ho _ _ _|f fs' t' s' Ht Ho _ _ _]; eauto. Qed.

Lemma ReadData_iff fs e : forall b t rest,
  ReadData utf8 fs e = inl (b, t, rest) <->
  exists skipped block, fs = skipped ++ block ++ rest /\ Forall control_ok skipped /\ message_frames utf8 block t b.
Proof.
  induction fs as [|f fs IH]; intros b t rest.
  - split; [cbn; done|]. intros (sk & block & Hf & _ & Hm). exfalso.
    destruct (message_head _ _ _ Hm) as (g & r & -> & _). destruct sk; discriminate Hf.
  - cbn [ReadData NextFrame]. destruct (CheckHeader false f) as [err|] eqn:Eh.
    { split; [done|]. intros (sk & block & Hf & Hs & Hm). exfalso. destruct sk as [|g sk].
      - destruct (message_head _ _ _ Hm) as (g & r & -> & Ho & Ht). injection Hf as -> _.
        unfold CheckHeader in Eh. rewrite Ho in Eh. destruct Ht as [-> | ->]; discriminate Eh.
      - injection Hf as -> _. apply Forall_cons in Hs as [Hg _].
        destruct (control_op _ Hg) as (_ & _ & _ & H). rewrite H in Eh. discriminate Eh. }
    assert (Hcase : (fr_op f = OpText \/ fr_op f = OpBinary) \/ fr_op f = OpClose \/
      ((fr_op f = OpPing \/ fr_op f = OpPong) /\ fr_fin f = true /\ String.length (fr_data f) <= 125)).
    { unfold CheckHeader in Eh. destruct (IsReserved (fr_op f)) eqn:Er; [discriminate Eh|].
      apply op_cases in Er. destruct (IsControl (fr_op f)) eqn:Ec.
      - destruct (fr_fin f); [|discriminate Eh]. cbn [negb] in Eh.
        destruct (Nat.ltb_spec 125 (String.length (fr_data f))) as [Hl|Hl]; [discriminate Eh|].
        destruct Er as [Er|[Er|[Er|[Er|[Er|Er]]]]]; rewrite Er in Ec |- *; try discriminate Ec; [by right; left|right; right; split; [by left|done]|right; right; split; [by right|done]].
      - destruct (N.eqb_spec (fr_op f) OpContinuation) as [|Hne]; [discriminate Eh|].
        destruct Er as [Er|[Er|[Er|[Er|[Er|Er]]]]]; rewrite Er in Hne, Ec |- *; try discriminate Ec; [by exfalso; apply Hne|by left; left|by left; right]. }
    destruct Hcase as [Ho|[Ho|(Ho & Hfin & Hlen)]].
    + assert (H1 : (fr_op f =? OpClose)%N = false) by (by destruct Ho as [-> | ->]).
      assert (H2 : IsControl (fr_op f) = false) by (by destruct Ho as [-> | ->]).
      assert (H3 : ((N.land (fr_op f) OpBinary =? 0)%N && (N.land (fr_op f) OpText =? 0)%N) = false) by (by destruct Ho as [-> | ->]).
      rewrite H1, H2, H3.
      assert (Hall : forall b' rest', ReadAll utf8 f fs e = inl (b', rest') <->
        exists block, f :: fs = block ++ rest' /\ message_frames utf8 block (fr_op f) b').
      { intros b' rest'. unfold ReadAll.
        destruct (fr_fin f) eqn:Hfin.
        - destruct ((fr_op f =? OpText)%N && negb (utf8 (fr_data f))) eqn:Eu.
          + split; [done|]. intros (block & Hf & Hm). exfalso.
            destruct Hm as [g t' s' Ht Hog Hfg <- Hu|g fs' t' s' Ht Hog Hfg Hc Hu]; injection Hf as -> ->; [|congruence].
            apply andb_true_iff in Eu as [Et Eu]. apply N.eqb_eq in Et. rewrite Hu in Eu by congruence. discriminate Eu.
          + split.
            * intros [= <- <-]. exists [f]. split; [done|]. constructor; try done.
              intros Ht. rewrite Ht in Eu. cbn in Eu. by destruct (utf8 _).
            * intros (block & Hf & Hm).
              destruct Hm as [g t' s' Ht Hog Hfg <- Hu|g fs' t' s' Ht Hog Hfg Hc Hu]; injection Hf as -> ->; [done|congruence].
        - rewrite read_rest_spec. split.
          + intros (block & s & -> & Hc & -> & Hu). exists (f :: block). split; [done|].
            constructor; try done. intros Ht. apply Hu. by rewrite Ht.
          + intros (block & Hf & Hm).
            destruct Hm as [g t' s' Ht Hog Hfg Hs Hu|g fs' t' s' Ht Hog Hfg Hc Hu]; injection Hf as -> ->; [congruence|].
            exists fs', s'. split; [done|]. split; [done|]. split; [done|]. intros Et. apply N.eqb_eq in Et. apply Hu. congruence. }
      split.
      * destruct (ReadAll utf8 f fs e) as [[b' rest']|] eqn:Er; [|done]. intros [= -> <- ->].
        destruct (proj1 (Hall b rest) eq_refl) as (block & Hf & Hm). exists [], block. done.
      * intros (sk & block & Hf & Hs & Hm). destruct sk as [|g sk].
        -- destruct (message_head _ _ _ Hm) as (g & r & Hb & Hog & _). rewrite Hb in Hf. injection Hf as Hfg Hfs.
           assert (Er : ReadAll utf8 f fs e = inl (b, rest)).
           { apply Hall. exists block. rewrite Hb. split; [by rewrite Hfg, Hfs|]. rewrite Hfg, Hog, <- Hb. done. }
           rewrite Er. subst f. by rewrite Hog.
        -- injection Hf as -> _. apply Forall_cons in Hs as [Hg _]. destruct (control_op _ Hg) as (_ & H & _). congruence.
    + rewrite Ho. change (OpClose =? OpClose)%N with true. cbv iota. split; [done|].
      intros (sk & block & Hf & Hs & Hm). exfalso. destruct sk as [|g sk].
      * destruct (message_head _ _ _ Hm) as (g & r & -> & Hog & Ht). injection Hf as -> _. rewrite Ho in Hog. destruct Ht as [-> | ->]; discriminate Hog.
      * injection Hf as -> _. apply Forall_cons in Hs as [Hg _]. destruct Hg as ([Hg|Hg] & _); rewrite Ho in Hg; discriminate Hg.
    + assert (Hctl : IsControl (fr_op f) = true) by (by destruct Ho as [-> | ->]).
      assert (Hcl : (fr_op f =? OpClose)%N = false) by (by destruct Ho as [-> | ->]).
      rewrite Hctl, Hcl.
      assert (Hnm : forall block r, f :: fs = block ++ r -> ~ message_frames utf8 block t b).
      { intros block r Hf Hm. destruct (message_head _ _ _ Hm) as (g & r' & -> & Hog & Ht). injection Hf as -> _.
        destruct Ht as [-> | ->]; rewrite Hog in Hctl; discriminate Hctl. }
      destruct (fr_handled f) as [err|] eqn:Ehd.
      * split; [done|]. intros (sk & block & Hf & Hs & Hm). exfalso. destruct sk as [|g sk]; [exact (Hnm block rest Hf Hm)|].
        injection Hf as -> _. apply Forall_cons in Hs as [(_ & _ & _ & Hg) _]. congruence.
      * rewrite IH. split.
        -- intros (sk & block & -> & Hs & Hm). exists (f :: sk), block. split; [done|]. split; [|done]. constructor; [|done]. by repeat split.
        -- intros (sk & block & Hf & Hs & Hm). destruct sk as [|g sk]; [exfalso; exact (Hnm block rest Hf Hm)|].
           injection Hf as -> ->. apply Forall_cons in Hs as [_ Hs]. by exists sk, block.
Qed.
End g.

(*@prop C52.  For every stream of frames: ReadData succeeds exactly if, after some pings and pongs, the stream
    goes on with the frames of one message; it returns the data and type of that message and leaves
    exactly the frames behind it. @*)
Lemma l_C52_read_data : forall utf8 fs e b t rest,
  ReadData utf8 fs e = inl (b, t, rest) <->
  exists skipped block, fs = skipped ++ block ++ rest /\ Forall control_ok skipped /\ message_frames utf8 block t b.
Proof. intros. apply ReadData_iff. Qed.

(*@prop C52.  Reading again and again gives the messages of the stream in their order, none skipped or
    duplicated, until the close frame or the failure behind them.  The reader then gets io.ErrUnexpectedEOF (which neffos takes as
    closed by the other side) if the stream is at its end or the other side sent a close frame, and otherwise the error of the connection. @*)
Lemma l_C52_all_messages : forall utf8 fs ms stop e fuel, carries utf8 fs ms ->
  (stop = [] \/ exists f rest, stop = f :: rest /\ fr_op f = OpClose) -> length ms < fuel ->
  exists err, read_many utf8 fuel (fs ++ stop) e = (ms, Some err) /\
    (stop = [] -> err = match e with EEOF => EUnexpectedEOF | _ => e end) /\
    (forall f rest, stop = f :: rest -> fr_fin f = true -> String.length (fr_data f) <= 125 -> err = EUnexpectedEOF).
Proof.
  intros utf8 fs ms stop e fuel Hc Hs. revert fuel.
  induction Hc as [|f fs ms Hf Hc IH|block fs t s ms Hm Hc IH]; intros fuel Hfuel.
  - destruct fuel as [|fuel]; [lia|]. cbn [app read_many].
    destruct (ReadData utf8 stop e) as [[[b t] rest]|err] eqn:Er.
    2:{ exists err. split; [reflexivity|]. split.
      - intros ->. cbn in Er. injection Er as <-. reflexivity.
      - intros f rest -> Hfin Hlen. destruct Hs as [Hs|(f' & rest' & Hs & Hop)]; [discriminate Hs|]. injection Hs as <- <-.
        assert (Hh : CheckHeader false f = None).
        { unfold CheckHeader. rewrite Hop, Hfin. change (IsReserved OpClose) with false. change (IsControl OpClose) with true.
          replace (125 <? String.length (fr_data f)) with false by (symmetry; apply Nat.ltb_ge; exact Hlen). reflexivity. }
        cbn [ReadData NextFrame] in Er. rewrite Hh, Hop in Er. change (OpClose =? OpClose)%N with true in Er. injection Er as <-. reflexivity. }
    exfalso. apply ReadData_iff in Er as (sk & block & Hst & Hsk & Hm).
    destruct (message_head _ _ _ _ Hm) as (g & r & -> & Hog & Ht).
    destruct Hs as [->|(f & r' & -> & Hf)].
    + destruct sk; discriminate Hst.
    + destruct sk as [|x sk]; injection Hst as -> _.
      * rewrite Hf in Hog. destruct Ht as [-> | ->]; discriminate Hog.
      * apply Forall_cons in Hsk as [([Hx|Hx] & _) _]; rewrite Hf in Hx; discriminate Hx.
  - destruct (IH fuel Hfuel) as (err & Herr & Hend). exists err. split; [|exact Hend].
    destruct fuel as [|fuel]; [cbn in Hfuel; lia|]. rewrite <- Herr. cbn [read_many].
    assert (Hstep : ReadData utf8 ((f :: fs) ++ stop) e = ReadData utf8 (fs ++ stop) e).
    { destruct (control_op _ Hf) as (H1 & H2 & H3 & H4). cbn [app ReadData NextFrame]. rewrite H4, H1, H2, H3. done. }
    rewrite Hstep. done.
  - destruct fuel as [|fuel]; [cbn in Hfuel; lia|]. cbn [read_many]. cbn in Hfuel.
    assert (Hr : ReadData utf8 ((block ++ fs) ++ stop) e = inl (s, t, fs ++ stop)).
    { apply ReadData_iff. exists [], block. split; [by rewrite <- app_assoc|]. split; [done|done]. }
    rewrite Hr. destruct (IH fuel ltac:(lia)) as (err & -> & Hend). exists err. split; [reflexivity|exact Hend].
Qed.

(*@ex
(** A fragmented text message with a ping inside, a binary message, then a close frame. *)
Definition C52_stream : list frame :=
  [Frame true OpPong "" None; Frame false OpText "hel" None; Frame true OpPing "?" None; Frame true OpContinuation "lo" None;
   Frame true OpBinary "world" None].
Example C52_example : carries (fun _ => true) C52_stream [(OpText, "hello"); (OpBinary, "world")] /\
  read_many (fun _ => true) 5 (C52_stream ++ [Frame true OpClose "" None]) EEOF =
    ([(OpText, "hello"); (OpBinary, "world")], Some EUnexpectedEOF).
Proof.
  assert (Hc : forall op d, (op = OpPing \/ op = OpPong) -> String.length d <= 125 -> control_ok (Frame true op d None)) by (intros; done).
  split; [|reflexivity]. unfold C52_stream.
  apply carries_control; [apply Hc; [by right|cbn; lia]|].
  apply (carries_message _ [Frame false OpText "hel" None; Frame true OpPing "?" None; Frame true OpContinuation "lo" None]).
  - apply (many_frames _ (Frame false OpText "hel" None) [_; _] OpText "lo"%string); [by left|done|done| |done].
    apply cont_control; [apply Hc; [by left|cbn; lia]|]. by apply (cont_last (Frame true OpContinuation "lo" None)).
  - apply (carries_message _ [Frame true OpBinary "world" None] []); [|constructor].
    constructor; try done. by right.
Qed.
@*)

Lemma read_rest_broken utf8 text e more : Forall (fun g => control_ok g \/ fr_op g = OpContinuation /\ fr_fin g = false) more ->
  forall acc, read_rest utf8 text acc more e = inr (match e with EEOF => EUnexpectedEOF | _ => e end).
Proof.
  induction 1 as [|g more Hg _ IH]; intros acc; [reflexivity|]. destruct Hg as [Hg|[Ho Hf]].
  - destruct (control_op g Hg) as (H1 & H2 & H3 & H4). cbn [read_rest NextFrame]. rewrite H4, H2, H1, H3. apply IH.
  - assert (Hc : CheckHeader true g = None) by (unfold CheckHeader; rewrite Ho; reflexivity).
    cbn [read_rest NextFrame]. rewrite Hc, Ho. change (IsControl OpContinuation) with false. cbv iota. rewrite Hf. apply IH.
Qed.

(*@prop C52.  If the stream breaks off inside a fragmented message, nothing of that message is returned: the reader gets
    io.ErrUnexpectedEOF at the end of the stream, and otherwise the error of the connection. @*)
Lemma l_C52_broken_off : forall utf8 skipped f more e, Forall control_ok skipped -> broken_off f more ->
  ReadData utf8 (skipped ++ f :: more) e = inr (match e with EEOF => EUnexpectedEOF | _ => e end).
Proof.
  intros utf8 skipped f more e Hs (Ho & Hf & Hm). induction Hs as [|g skipped Hg _ IH].
  - cbn [app ReadData NextFrame].
    assert (Hc : CheckHeader false f = None) by (unfold CheckHeader; destruct Ho as [-> | ->]; reflexivity). rewrite Hc.
    destruct Ho as [Ho|Ho]; rewrite Ho; cbn; unfold ReadAll; rewrite Hf; rewrite read_rest_broken by exact Hm; reflexivity.
  - cbn [app ReadData NextFrame]. destruct (control_op g Hg) as (H1 & H2 & H3 & H4). rewrite H4, H1, H2, H3. exact IH.
Qed.

(*@ex
Example C52_broken : broken_off (Frame false OpText "hel" None) [Frame true OpPing "p" None; Frame false OpContinuation "lo" None].
Proof.
  split; [left; reflexivity|]. split; [reflexivity|]. constructor; [left|constructor; [right; split; reflexivity|constructor]].
  split; [left; reflexivity|]. split; [reflexivity|]. split; [vm_compute; lia|reflexivity].
Qed.
@*)

(*@prop C52.  The gorilla socket: the first text or binary message of what ReadMessage returns, unchanged. @*)
Lemma l_C52_gorilla : forall ms e b t rest,
  gorilla_ReadData ms e = inl (b, t, rest) <->
  exists skipped, ms = skipped ++ (t, b) :: rest /\ (t = 1%N \/ t = 2%N) /\ Forall (fun p => fst p <> 1%N /\ fst p <> 2%N) skipped.
Proof.
  intros ms e b t rest. induction ms as [|[op d] ms IH]; cbn [gorilla_ReadData].
  - split; [done|]. intros (sk & H & _). destruct sk; discriminate H.
  - destruct (N.eqb_spec op 2) as [->|H2]; cbn [negb andb].
    + split.
      * intros [= <- <- <-]. exists []. split; [done|]. split; [by right|done].
      * intros ([|[x y] sk] & H & Ht & Hs); [by injection H as -> -> ->|]. injection H as <- _ _.
        apply Forall_cons in Hs as [[_ Hs] _]. by cbn in Hs.
    + destruct (N.eqb_spec op 1) as [->|H1]; cbn [negb].
      * split.
        -- intros [= <- <- <-]. exists []. split; [done|]. split; [by left|done].
        -- intros ([|[x y] sk] & H & Ht & Hs); [by injection H as -> -> ->|]. injection H as <- _ _.
           apply Forall_cons in Hs as [[Hs _] _]. by cbn in Hs.
      * rewrite IH. split.
        -- intros (sk & -> & Ht & Hs). exists ((op, d) :: sk). split; [done|]. split; [done|]. by constructor.
        -- intros ([|[x y] sk] & H & Ht & Hs).
           ++ injection H as -> _ _. destruct Ht; done.
           ++ injection H as -> -> ->. apply Forall_cons in Hs as [_ Hs]. by exists sk.
Qed.
