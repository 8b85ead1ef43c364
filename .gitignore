rocq/.lia.cache
.lia.cache
.nia.cache
.lia.cache
.nra.cache
