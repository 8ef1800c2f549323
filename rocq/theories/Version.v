(** Engine versions: src/version/version.rs, and [FarcasterTime]: src/core/util.rs:11-60. *)
From Verif Require Export Base.

(** core/types.rs [FARCASTER_EPOCH] (milliseconds). *)
Definition FARCASTER_EPOCH : N := 1609459200000.
Definition EPOCH_S : N := FARCASTER_EPOCH / 1000.

(** core/util.rs:35-37 [to_unix_seconds]: [u64] addition, wrapping in release builds. *)
Definition to_unix_seconds (t : N) : N := (t + EPOCH_S) mod 2 ^ 64.
(** core/util.rs:49-53 [decr_by]. *)
Definition decr_by (t secs : N) : N := (2 ^ 64 + t - secs) mod 2 ^ 64.

(** proto FarcasterNetwork; everything but mainnet and testnet uses the devnet schedule. *)
Inductive network := Mainnet | Testnet | Devnet.

(** version.rs:8-33 [EngineVersion], by discriminant ([Ord] is derived). *)
Notation version := N (only parsing).
Definition LATEST_VERSION : version := 21.

(** version.rs:71-235, the three schedules: (active_at, version). *)
Definition schedule_mainnet : list (N * version) :=
  [(0, 0); (1747333800, 1); (1747352400, 2); (1747356000, 3); (1747417200, 4); (1750093200, 5); (1752685200, 6);
   (1756141200, 7); (1756918800, 8); (1757523600, 9); (1758733200, 10); (1759942800, 11); (1759942800, 12);
   (1759942800, 13); (1761757200, 14); (1765386000, 15); (1778173200, 16); (1780592400, 17); (1782147600, 18);
   (1785160800, 19); (1786640400, 20)].
Definition schedule_testnet : list (N * version) :=
  [(0, 0); (1748970000, 5); (1752099060, 6); (1755291600, 7); (1755709200, 8); (1756918800, 9); (1757523600, 10);
   (1758733200, 11); (1758763200, 12); (1758906000, 13); (1761152400, 14); (1764783794, 15); (1777406400, 16);
   (1779382800, 17); (1781283600, 18); (1784124000, 19); (1786035600, 20)].
Definition schedule_devnet : list (N * version) := [(0, 21)].
Definition schedule (n : network) : list (N * version) :=
  match n with Mainnet => schedule_mainnet | Testnet => schedule_testnet | Devnet => schedule_devnet end.

(** version.rs:238-255 [version_for]: last entry of the list that is active; [None] is the panic. *)
Definition version_at (sch : list (N * version)) (unix : N) : option version :=
  snd <$> last (filter (fun e : N * version => e.1 <= unix) sch).
Definition version_for (t : N) (n : network) : option version := version_at (schedule n) (to_unix_seconds t).

(** version.rs:444-459 [next_version_timestamp_for]. *)
Definition next_version_at (sch : list (N * version)) (unix : N) : option N :=
  fst <$> head (filter (fun e : N * version => unix < e.1) sch).

(** version.rs:35-65 [ProtocolFeature]. *)
Inductive feature :=
  SignerRevokeBug | FarcasterPro | Basenames | EnsValidation | MessageLengthCheckFix | PrimaryAddresses
| UsernameShardRoutingFix | FutureTimestampValidation | DependentMessagesInBulkSubmit
| DecoupleShardZeroBlockProduction | WriteDataToShardZero | ReadDataFromShardZero | UserProfileToken
| StorageLending | EventIdBugFix | StorageLendingLimitFix | StopRevokingExistingMessages
| IncreaseUsernameProofSizeLimit | GaslessSigners | LiveAt | StorageExpiryExtension2026 | BlockLinks
| ChannelRegistrations | SortedBlockEngineEvents | ChannelOwnershipEvents | ChannelMessages
| VerificationsOnShardZero | ChannelFollows | IncreaseEmbedLimitForAllUsers.
Global Instance feature_eqdec : EqDecision feature.
Proof. solve_decision. Defined.

(** version.rs:281-412 [is_enabled]. *)
Definition is_enabled (v : version) (f : feature) : bool :=
  match f with
  | SignerRevokeBug => (v =? 1) || (v =? 3)
  | FarcasterPro | Basenames | EnsValidation | MessageLengthCheckFix | UsernameShardRoutingFix | PrimaryAddresses => 5 <=? v
  | FutureTimestampValidation => 6 <=? v
  | DependentMessagesInBulkSubmit => 7 <=? v
  | DecoupleShardZeroBlockProduction => 8 <=? v
  | WriteDataToShardZero => 9 <=? v
  | ReadDataFromShardZero | UserProfileToken => 10 <=? v
  | StorageLending => 11 <=? v
  | EventIdBugFix => 12 <=? v
  | StorageLendingLimitFix => 13 <=? v
  | StopRevokingExistingMessages => 14 <=? v
  | IncreaseUsernameProofSizeLimit => 15 <=? v
  | GaslessSigners => 16 <=? v
  | LiveAt => 17 <=? v
  | StorageExpiryExtension2026 => 18 <=? v
  | BlockLinks => 19 <=? v
  | IncreaseEmbedLimitForAllUsers => 20 <=? v
  | ChannelRegistrations | SortedBlockEngineEvents | ChannelOwnershipEvents | ChannelMessages
  | VerificationsOnShardZero => 21 <=? v
  | ChannelFollows => 21 <=? v
  end.

(** version.rs:414-436 [protocol_version]. *)
Definition protocol_version (v : version) : N :=
  if v <=? 4 then 1 else if v =? 5 then 2 else if v =? 6 then 3 else if v =? 7 then 4 else if v =? 8 then 5
  else if v =? 9 then 6 else if v =? 10 then 7 else if v <=? 13 then 8 else if v =? 14 then 9 else if v =? 15 then 10
  else if v =? 16 then 11 else if v =? 17 then 12 else 13.
