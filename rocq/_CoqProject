-Q theories Verif
theories/Model/Base.v
theories/Model/BitVec.v
theories/Model/BinarySearch.v
theories/Model/Archetype.v
theories/Model/Entities.v
theories/Model/Tags.v
theories/Model/Orders.v
theories/Model/Page.v
theories/Model/ArchContainer.v
theories/Model/Tuple.v
theories/Model/Store.v
theories/Model/Query.v
theories/Model/Examples.v
theories/Model/Derive.v
theories/Model/Run.v
theories/Model/Resource.v
theories/Model/Heap.v
theories/Proofs/Wp.v
theories/Proofs/BitVecP.v
theories/Spec/Env.v
theories/Spec/Handles.v
theories/Proofs/EntitiesP.v
theories/Proofs/StoreP.v
theories/Proofs/BinarySearchP.v
theories/Proofs/HandlesP.v
theories/Proofs/ExecP.v
theories/Properties/Handles.v
theories/Proofs/SortedP.v
theories/Proofs/TagsP.v
theories/Spec/Tags.v
theories/Spec/Bits.v
theories/Proofs/TagsX.v
theories/Properties/Tags.v
theories/Spec/Orders.v
theories/Spec/Shown.v
theories/Spec/Visits.v
theories/Spec/Runs.v
theories/Spec/Clients.v
theories/Proofs/GroupP.v
theories/Proofs/OrdersP.v
theories/Proofs/OrdersH.v
theories/Proofs/OrdersX.v
theories/Proofs/OrdersL.v
theories/Properties/Orders.v
theories/Spec/Archetypes.v
theories/Spec/Components.v
theories/Spec/Usage.v
theories/Proofs/ArchP.v
theories/Proofs/LayoutP.v
theories/Proofs/ArchX.v
theories/Properties/Archetypes.v
theories/Proofs/PageP.v
theories/Proofs/ArchContP.v
theories/Proofs/TupleP.v
theories/Spec/Queries.v
theories/Proofs/QueryP.v
theories/Proofs/CompP.v
theories/Proofs/CompH.v
theories/Proofs/CompX.v
theories/Properties/Components.v
theories/Proofs/CompQ.v
theories/Proofs/QueryX.v
theories/Proofs/EntQ.v
theories/Proofs/OrdQ.v
theories/Properties/Queries.v
theories/Spec/Resources.v
theories/Proofs/ResourceP.v
theories/Properties/Resources.v
theories/Spec/Modes.v
theories/Proofs/ShapeP.v
theories/Proofs/RobustP.v
theories/Proofs/StaleP.v
theories/Proofs/ModeP.v
theories/Proofs/HandlesR.v
theories/Properties/Modes.v
theories/Properties/Robust.v
theories/Proofs/UsageR.v
theories/Proofs/UsageP.v
theories/Properties/Pages.v
theories/Spec/Safety.v
theories/Spec/Heap.v
theories/Proofs/SafeP.v
theories/Proofs/HeapP.v
theories/Properties/Safety.v
theories/Properties/Heap.v
theories/Spec/Discipline.v
theories/Proofs/DiscP.v
theories/Properties/Discipline.v
theories/Spec/Aliasing.v
theories/Proofs/AliasP.v
theories/Properties/Aliasing.v
theories/Model/QueryObj.v
theories/Proofs/QueryObjP.v
theories/Spec/Writes.v
theories/Proofs/WriteP.v
theories/Properties/Writes.v
theories/Proofs/DiscQ.v
theories/Proofs/VisitP.v
theories/Proofs/OrdW.v
theories/Proofs/LenP.v
theories/Proofs/ClientP.v
theories/Properties/Both.v
theories/Properties/Visits.v
theories/Properties/Clients.v
theories/Spec/Memory.v
theories/Proofs/MemP.v
theories/Properties/Memory.v
theories/Spec/Library.v
theories/Proofs/LibP.v
theories/Proofs/LibR.v
theories/Properties/Library.v
theories/Tests/Harness.v
theories/Tests/Archetypes.v
theories/Tests/Components.v
theories/Tests/Entities.v
theories/Tests/Orders.v
theories/Tests/Queries.v
theories/Tests/Oracle.v
theories/Tests/OracleRuns.v
theories/Model/Unwind.v
theories/Spec/Unwind.v
theories/Proofs/UnwindP.v
theories/Proofs/UnwindH.v
theories/Proofs/UnwindT.v
theories/Spec/Caught.v
theories/Proofs/UnwindC.v
theories/Proofs/UnwindB.v
theories/Proofs/UnwindQ.v
theories/Properties/Unwind.v
theories/Properties/Caught.v
theories/Properties/CaughtC.v
theories/Spec/Derive.v
theories/Spec/Growth.v
theories/Spec/ResourceX.v
theories/Spec/Predict.v
theories/Spec/Independence.v
theories/Proofs/DeriveP.v
theories/Proofs/GrowthP.v
theories/Proofs/ResourceX.v
theories/Proofs/PredictP.v
theories/Proofs/IndepP.v
theories/Properties/Derive.v
theories/Properties/Growth.v
theories/Properties/ResourceX.v
theories/Spec/Story.v
theories/Proofs/StoryP.v
theories/Proofs/StoryC.v
theories/Spec/Swap.v
theories/Proofs/SwapP.v
theories/Spec/TakeBack.v
theories/Proofs/TakeBackP.v
theories/Spec/Override.v
theories/Proofs/OverrideP.v
theories/Proofs/LawsC.v
theories/Spec/Alike.v
theories/Spec/Systems.v
theories/Spec/Schedule.v
theories/Spec/Rearrange.v
theories/Spec/Simplify.v
theories/Spec/Merge.v
theories/Proofs/AlikeP.v
theories/Proofs/SystemsP.v
theories/Proofs/ScheduleP.v
theories/Proofs/RearrangeP.v
theories/Proofs/SimplifyP.v
theories/Proofs/MergeP.v
theories/Spec/PredictC.v
theories/Proofs/PredictC.v
theories/Properties/Predict.v
theories/Properties/Story.v
theories/Properties/Swap.v
theories/Properties/TakeBack.v
theories/Properties/Override.v
theories/Properties/LawsC.v
theories/Properties/Alike.v
theories/Properties/Systems.v
theories/Properties/Schedule.v
theories/Properties/Rearrange.v
theories/Properties/Simplify.v
theories/Properties/Merge.v
