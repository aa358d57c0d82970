*.cache
**/.nra.cache
**/.lia.cache
