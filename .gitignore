.lia.cache
.nia.cache
rocq/.nra.cache
rocq/.lia.cache
rocq/.nia.cache
