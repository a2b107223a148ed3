(** Opening a wallet: /repo/nip60/wallet.go:52-111. *)
From Verif Require Import Base EventModel TagsModel FilterModel Nip19Model Machine WalletModel WalletLoadModel.
Import ListNotations.
Local Open Scope Z_scope.

(** nip60/wallet.go:82-93: what is asked for with and without the history *)
Definition wallet_kinds (history : bool) : list Z := [17375; 7375] ++ (if history then [7376] else []).
Definition wallet_filter (pk : str) (history : bool) : nfilter := mkFilter None (Some (wallet_kinds history)) (Some [pk]) [] None None 0 [] false.
(** nip60/wallet.go:95-101 *)
Definition wallet_deletions (pk : str) : nfilter := mkFilter None (Some [5]) (Some [pk]) [(B "k", Some [B "7375"])] None None 0 [] false.
(** nip60/wallet.go:76-80: without a key there is no wallet, and nothing is asked *)
Definition open_wallet (key : option str) (history : bool) : option (nfilter * nfilter) :=
  match key with None => None | Some pk => Some (wallet_filter pk history, wallet_deletions pk) end.

Section Open.
(** Token.parse, modelled in WalletLoadModel's parameters: decrypts the content *)
Variable decode : event -> option token.
Inductive incoming := InEvent (e : event) | InDeletion (e : event).
(** nip60/wallet.go:142-158, 160-226: what the two loops do with what comes; only token events and deletions touch the tokens *)
Definition handled (i : incoming) : list laction :=
  match i with
  | InEvent e => if ev_kind e =? 7375 then match decode e with Some t => [LToken t; LEnd] | None => [] end else []
  | InDeletion e => [LDel (map (fun t => nth 1 t []) (find_all (ev_tags e) (B "e"))); LEnd]
  end.
End Open.

(** nip60/wallet.go:87-108, 128-131: the goroutine that waits for the end of stored events of the deletions, then of the events, and tells the loader *)
Inductive opc := OWaitD | OWaitE | OBoth | OTold.
Record ostate := mkO { o_load : lstate; o_eosed_e : bool; o_eosed_d : bool; o_pc : opc }.
Inductive oaction := OEoseE | OEoseD | OGotD | OGotE | OClose | OLoad (a : laction).
Definition is_flag (a : laction) : bool := match a with LFlag => true | _ => false end.
Definition ostep (a : oaction) (s : ostate) : option ostate :=
  match a with
  | OEoseE => Some (mkO (o_load s) true (o_eosed_d s) (o_pc s))
  | OEoseD => Some (mkO (o_load s) (o_eosed_e s) true (o_pc s))
  | OGotD => match o_pc s with OWaitD => if o_eosed_d s then Some (mkO (o_load s) (o_eosed_e s) (o_eosed_d s) OWaitE) else None | _ => None end
  | OGotE => match o_pc s with OWaitE => if o_eosed_e s then Some (mkO (o_load s) (o_eosed_e s) (o_eosed_d s) OBoth) else None | _ => None end
  | OClose => match o_pc s with OBoth => Some (mkO (o_load s) (o_eosed_e s) (o_eosed_d s) OTold) | _ => None end
  | OLoad a => if is_flag a && negb (match o_pc s with OTold => true | _ => false end) then None else
      match lstep a (o_load s) with Some l => Some (mkO l (o_eosed_e s) (o_eosed_d s) (o_pc s)) | None => None end
  end.
Definition onew : ostate := mkO lnew false false OWaitD.
